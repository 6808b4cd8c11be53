(** Two successful runs of the constant-time prover's pieces on data of the same shape have the same trace. *)
From Verif Require Export LeakCore.

Section LeakFacts.
Context {E : env}.

Definition related {Er A B} (P : A -> B -> Prop) (x : traced (E := E) (outcome Er A)) (y : traced (E := E) (outcome Er B)) : Prop :=
  forall a b, value x = Ok a -> value y = Ok b -> leakage x = leakage y /\ P a b.
Definition any {A B} (a : A) (b : B) : Prop := True.
Definition same_len {A B} (a : list A) (b : list B) : Prop := length a = length b.
Definition same_shape {A B} (a : list (list A)) (b : list (list B)) : Prop := Forall2 same_len a b.

Lemma related_tout {Er A B A' B'} (P : A -> B -> Prop) (Q : A' -> B' -> Prop) (x : traced (outcome Er A)) y f g :
  related P x y -> (forall a b, P a b -> related Q (f a) (g b)) -> related Q (tout x f) (tout y g).
Proof.
  intros Hx Hf a' b' Ha Hb. rewrite tout_value in Ha. rewrite tout_value in Hb. unfold related in Hx.
  destruct x as [tx [a| | |]], y as [ty [b| | |]]; cbn [value snd obind] in *; try discriminate.
  destruct (Hx a b eq_refl eq_refl) as [Ht HP]. destruct (Hf a b HP a' b' Ha Hb) as [Ht' HQ].
  split; [|exact HQ]. cbn [tout tbind leakage fst snd] in *. rewrite Ht. f_equal. exact Ht'.
Qed.
Lemma related_emit {Er A B} (P : A -> B -> Prop) l l' (x : traced (outcome Er A)) y :
  l = l' -> related P x y -> related P (tbind (emit l) (fun _ => x)) (tbind (emit l') (fun _ => y)).
Proof. intros <- H a b Ha Hb. destruct (H a b Ha Hb) as [Ht HP]. split; [|exact HP]. cbn. f_equal. exact Ht. Qed.
Lemma related_pure {Er A B} (P : A -> B -> Prop) l l' (x : outcome Er A) y :
  l = l' -> (forall a b, x = Ok a -> y = Ok b -> P a b) -> related P (l, x) (l', y).
Proof. intros <- H a b Ha Hb. split; [reflexivity|]. exact (H a b Ha Hb). Qed.
Lemma related_ret {Er A B} (P : A -> B -> Prop) a b : P a b -> related P (tret (Ok (E := Er) a)) (tret (Ok b)).
Proof. intros H. apply related_pure; [reflexivity|]. intros a' b' Ha Hb. injection Ha as <-. injection Hb as <-. exact H. Qed.
Lemma related_index {Er A B} (l : list A) (l' : list B) i : related (Er := Er) any (t_index l i) (t_index l' i).
Proof. apply related_pure; [reflexivity|]. intros. exact I. Qed.
Lemma related_index_all {Er A B} (P : A -> B -> Prop) (l : list A) (l' : list B) i :
  Forall2 P l l' -> related (Er := Er) P (t_index l i) (t_index l' i).
Proof.
  intros H. apply related_pure; [reflexivity|]. intros a b Ha Hb. unfold index in *.
  destruct (nth_error l i) as [a'|] eqn:Ea; [|discriminate]. destruct (nth_error l' i) as [b'|] eqn:Eb; [|discriminate].
  injection Ha as <-. injection Hb as <-. revert i Ea Eb. induction H as [|x y l l' Hxy _ IH]; intros [|i] Ea Eb; try discriminate.
  - injection Ea as <-. injection Eb as <-. exact Hxy.
  - exact (IH i Ea Eb).
Qed.
Lemma related_check {Er} c c' (e e' : Er) : related any (t_check c e) (t_check c' e').
Proof. intros a b Ha Hb. destruct c, c'; cbn in *; try discriminate. split; [reflexivity|exact I]. Qed.
Lemma set_nth_length {A} (l : list A) i x r : set_nth l i x = Some r -> length r = length l.
Proof.
  revert i r. induction l as [|y l IH]; intros [|i] r H; try discriminate; cbn in H.
  - injection H as <-. reflexivity.
  - destruct (set_nth l i x) as [r'|] eqn:Er; [|discriminate]. injection H as <-. cbn. f_equal. exact (IH _ _ Er).
Qed.
Lemma related_set {Er A} (l l' : list A) i x x' : same_len l l' -> related (Er := Er) same_len (t_set l i x) (t_set l' i x').
Proof.
  intros H. apply related_pure; [reflexivity|]. intros a b Ha Hb. unfold vec_set in *. unfold same_len in *.
  destruct (set_nth l i x) as [r|] eqn:Ea; [|discriminate]. destruct (set_nth l' i x') as [r'|] eqn:Eb; [|discriminate].
  injection Ha as <-. injection Hb as <-. apply set_nth_length in Ea, Eb. congruence.
Qed.
Lemma Forall2_len {A B} (P : A -> B -> Prop) l l' : Forall2 P l l' -> length l = length l'.
Proof. induction 1; cbn; congruence. Qed.
Lemma related_each {Er A A' B B'} (R : A -> A' -> Prop) (P : B -> B' -> Prop) (f : A -> traced (outcome Er B)) g l l' :
  Forall2 R l l' -> (forall a b, R a b -> related P (f a) (g b)) -> related (Forall2 P) (t_each f l) (t_each g l').
Proof.
  intros Hl Hf. induction Hl as [|x y l l' Hxy Hl IH]; cbn [t_each].
  - apply related_ret. constructor.
  - eapply related_tout; [apply Hf; exact Hxy|]. intros a b Hab. eapply related_tout; [exact IH|]. intros s t Hst.
    apply related_ret. constructor; assumption.
Qed.
Lemma related_mapM {Er A A' B B'} (R : A -> A' -> Prop) (P : B -> B' -> Prop) (f : A -> traced (outcome Er B)) g l l' :
  Forall2 R l l' -> (forall a b, R a b -> related P (f a) (g b)) -> related (Forall2 P) (t_mapM f l) (t_mapM g l').
Proof.
  intros Hl Hf. unfold t_mapM. apply related_emit; [rewrite (Forall2_len _ _ _ Hl); reflexivity|]. exact (related_each R P f g l l' Hl Hf).
Qed.
Lemma Forall2_eq {A} (l : list A) : Forall2 eq l l.
Proof. induction l; constructor; auto. Qed.
Lemma related_mapM_same {Er A B B'} (P : B -> B' -> Prop) (f : A -> traced (outcome Er B)) (g : A -> traced (outcome Er B')) l :
  (forall a, related P (f a) (g a)) -> related (Forall2 P) (t_mapM f l) (t_mapM g l).
Proof. intros H. apply related_mapM with (R := eq); [apply Forall2_eq|]. intros a b <-. apply H. Qed.
Lemma related_weaken {Er A B} (P Q : A -> B -> Prop) (x : traced (outcome Er A)) y :
  related P x y -> (forall a b, P a b -> Q a b) -> related Q x y.
Proof. intros H HPQ a b Ha Hb. destruct (H a b Ha Hb) as [Ht HP]. split; [exact Ht|exact (HPQ a b HP)]. Qed.
Lemma Forall2_any_len {A B} (l : list A) (l' : list B) : same_len l l' <-> Forall2 any l l'.
Proof.
  unfold same_len. split; [|apply Forall2_len]. revert l'. induction l as [|x l IH]; intros [|y l'] H; try discriminate; constructor.
  - exact I.
  - apply IH. cbn in H. congruence.
Qed.
Lemma shape_of_any {A B} (l : list (list A)) (l' : list (list B)) : Forall2 (Forall2 any) l l' -> same_shape l l'.
Proof. intros H. induction H; constructor; [apply Forall2_any_len; assumption|assumption]. Qed.
Lemma shape_len {A B} (l : list (list A)) (l' : list (list B)) : same_shape l l' -> same_len l l'.
Proof. apply Forall2_len. Qed.
Lemma shape_concat {A B} (l : list (list A)) (l' : list (list B)) : same_shape l l' -> same_len (concat l) (concat l').
Proof. unfold same_len. induction 1; [reflexivity|]. cbn. rewrite !app_length. unfold same_len in *. congruence. Qed.

(** gray.rs, constant time *)
Definition related_opt {A B} (P : A -> B -> Prop) (x : traced (E := E) (option A)) (y : traced (E := E) (option B)) : Prop :=
  forall a b, value x = Some a -> value y = Some b -> leakage x = leakage y /\ P a b.
Lemma base_loop_ct_trace base k v v' :
  leakage (t_base_loop_ct (E := E) base k v) = leakage (t_base_loop_ct (E := E) base k v').
Proof.
  revert v v'. induction k as [|k IH]; intros v v'; [reflexivity|]. cbn [t_base_loop_ct tbind emit leakage fst snd app tret].
  f_equal. f_equal. apply IH.
Qed.
Lemma base_loop_ct_length base k v : length (base_loop_ct base k v) = k.
Proof. revert v. induction k as [|k IH]; intros v; [reflexivity|]. cbn. f_equal. apply IH. Qed.
Lemma gray_loop_ct_trace base s s' rb rb' ds ds' : same_len rb rb' ->
  leakage (t_gray_loop_ct (E := E) base s rb ds) = leakage (t_gray_loop_ct (E := E) base s' rb' ds').
Proof.
  unfold same_len. revert s s' rb' ds ds'. induction rb as [|b rb IH]; intros s s' [|b' rb'] ds ds' H; try discriminate; [reflexivity|].
  cbn in H. injection H as H. cbn [t_gray_loop_ct tbind emit leakage fst snd app]. rewrite H. do 5 f_equal. apply IH. exact H.
Qed.
Lemma gray_loop_ct_length base s rb ds : length (gray_loop_ct base s rb ds) = (length rb + length ds)%nat.
Proof. revert s ds. induction rb as [|b rb IH]; intros s ds; [reflexivity|]. cbn [gray_loop_ct]. cbv zeta. rewrite IH. cbn. lia. Qed.
Lemma all_u32_trace l l' : same_len l l' -> related_opt same_len (t_all_u32 (E := E) l) (t_all_u32 (E := E) l').
Proof.
  unfold same_len. revert l'. induction l as [|x l IH]; intros [|x' l'] H a b Ha Hb; try discriminate.
  - cbn in *. injection Ha as <-. injection Hb as <-. split; reflexivity.
  - cbn in H. injection H as H. specialize (IH l' H). cbn [t_all_u32] in *.
    unfold t_try in *. rewrite topt_value in Ha. rewrite topt_value in Hb. cbn [value snd] in Ha, Hb.
    destruct (checked u32_bound x) as [y|] eqn:Ex; [|discriminate]. destruct (checked u32_bound x') as [y'|] eqn:Ex'; [|discriminate].
    rewrite topt_value in Ha. rewrite topt_value in Hb.
    destruct (value (t_all_u32 (E := E) l)) as [r|] eqn:Er; [|discriminate]. destruct (value (t_all_u32 (E := E) l')) as [r'|] eqn:Er'; [|discriminate].
    destruct (IH r r' Er Er') as [Ht Hl]. cbn in Ha, Hb. injection Ha as <-. injection Hb as <-. split; [|cbn; congruence].
    unfold topt, tbind, leakage, value in *. cbn [fst snd is_some]. rewrite Er, Er'. cbn. rewrite !app_nil_r. f_equal. exact Ht.
Qed.
Lemma decompose_trace base digits v v' : related_opt same_len (t_decompose (E := E) base digits v) (t_decompose (E := E) base digits v').
Proof.
  intros a b Ha Hb. unfold t_decompose in *. rewrite tbind_value in Ha. rewrite tbind_value in Hb. cbn [tbind emit leakage fst snd] in *.
  destruct (_ || _); [discriminate|]. rewrite !tbind_value in Ha. rewrite !tbind_value in Hb.
  assert (Hd : same_len (value (t_base_loop_ct (E := E) base (N.to_nat digits) v)) (value (t_base_loop_ct (E := E) base (N.to_nat digits) v'))).
  { rewrite !t_base_loop_ct_erase. unfold same_len. rewrite !base_loop_ct_length. reflexivity. }
  assert (Hr : same_len (rev (value (t_base_loop_ct (E := E) base (N.to_nat digits) v))) (rev (value (t_base_loop_ct (E := E) base (N.to_nat digits) v')))).
  { unfold same_len in *. rewrite !rev_length. exact Hd. }
  destruct (all_u32_trace _ _ (ltac:(rewrite !t_gray_loop_ct_erase; unfold same_len in *; rewrite !gray_loop_ct_length; congruence) :
    same_len (value (t_gray_loop_ct (E := E) base 0 (rev (value (t_base_loop_ct (E := E) base (N.to_nat digits) v))) []))
             (value (t_gray_loop_ct (E := E) base 0 (rev (value (t_base_loop_ct (E := E) base (N.to_nat digits) v'))) []))) a b Ha Hb) as [Ht Hl].
  split; [|exact Hl]. cbn [app]. do 4 f_equal. unfold tbind. cbn [fst snd]. f_equal; [apply base_loop_ct_trace|].
  f_equal; [|exact Ht]. exact (gray_loop_ct_trace base 0 0 _ _ [] [] Hr).
Qed.
Lemma related_ok_or {Er A B} (P : A -> B -> Prop) (x : traced (option A)) (y : traced (option B)) (e e' : Er) :
  related_opt P x y -> related P (t_ok_or x e) (t_ok_or y e').
Proof.
  intros H a b Ha Hb. rewrite t_ok_or_value in Ha. rewrite t_ok_or_value in Hb. destruct x as [tx [a'|]], y as [ty [b'|]]; cbn in *; try discriminate.
  injection Ha as ->. injection Hb as ->. destruct (H a b eq_refl eq_refl) as [Ht HP]. cbn in Ht. split; [cbn; congruence|exact HP].
Qed.

Lemma related_same {Er A} (x : traced (outcome Er A)) : related eq x x.
Proof. intros a b Ha Hb. split; [reflexivity|congruence]. Qed.

(** The pieces of the prover *)
Lemma select_key_trace (M M' : list (pt E)) l l' : same_len M M' ->
  related any (t_select_key ConstantTime M l) (t_select_key ConstantTime M' l').
Proof.
  intros H. apply related_pure; [|intros; exact I]. f_equal; [f_equal; exact H|].
  unfold same_len in H. revert M' H. induction M as [|x M IH]; intros [|x' M'] H; try discriminate; [reflexivity|].
  cbn. do 2 f_equal. apply IH. cbn in H. congruence.
Qed.
Lemma decompose_index_trace n m l l' : related same_len (t_decompose_index (E := E) ConstantTime n m l) (t_decompose_index ConstantTime n m l').
Proof. apply related_ok_or. apply decompose_trace. Qed.
Lemma msm_trace ss ss' (ps ps' : list (pt E)) : same_len ss ss' -> same_len ps ps' -> t_msm ConstantTime ss ps = t_msm ConstantTime ss' ps'.
Proof. unfold same_len. intros H H'. cbn. rewrite H, H'. reflexivity. Qed.
Lemma app_len {A B} (a b : list A) (a' b' : list B) : same_len a a' -> same_len b b' -> same_len (a ++ b) (a' ++ b').
Proof. unfold same_len. rewrite !app_length. congruence. Qed.
Lemma commit_matrix_trace n m (CG CG' : list (pt E)) CH CH' mat mat' mask mask' : same_len CG CG' -> same_shape mat mat' ->
  related any (t_commit_matrix_with n m CG CH mat mask ConstantTime) (t_commit_matrix_with n m CG' CH' mat' mask' ConstantTime).
Proof.
  intros HG Hm. unfold t_commit_matrix_with. eapply related_tout; [apply related_check|]. intros _ _ _.
  apply related_emit.
  { clear -Hm. induction Hm as [|r r' mat mat' Hr _ IH]; [reflexivity|]. cbn. unfold same_len in Hr. rewrite Hr. f_equal. exact IH. }
  eapply related_tout; [apply related_check|]. intros _ _ _. cbv zeta. apply related_pure; [|intros; exact I].
  apply msm_trace; apply app_len; try reflexivity; [apply shape_concat|]; assumption.
Qed.
Lemma balance_row_trace row row' : same_len row row' -> related same_len (t_balance_row (E := E) row) (t_balance_row row').
Proof.
  unfold same_len. intros H. apply related_pure; [rewrite H; reflexivity|]. intros a b Ha Hb.
  destruct row as [|x row], row' as [|x' row']; try discriminate. cbn in *. injection Ha as <-. injection Hb as <-. cbn. exact H.
Qed.
Lemma balance_trace (a a' : list (list scalar)) : same_shape a a' ->
  related same_shape (t_mapM (E := E) t_balance_row a) (t_mapM t_balance_row a').
Proof. intros H. apply related_mapM with (R := same_len); [exact H|]. apply balance_row_trace. Qed.
Lemma sigma_matrix_trace n m ds ds' : related same_shape (t_sigma_matrix (E := E) ConstantTime n m ds) (t_sigma_matrix ConstantTime n m ds').
Proof.
  unfold t_sigma_matrix. apply related_mapM_same. intros j. eapply related_tout; [apply related_index|]. intros lj lj' _.
  apply related_emit; [reflexivity|]. apply related_pure; [reflexivity|]. intros x y Hx Hy. injection Hx as <-. injection Hy as <-.
  unfold same_len. rewrite !map_length. reflexivity.
Qed.
Lemma index2_trace mat mat' j i : related any (t_index2 (E := E) mat j i) (t_index2 mat' j i).
Proof. unfold t_index2. eapply related_tout; [apply related_index|]. intros; apply related_index. Qed.
Lemma a_sigma_trace n m a a' s s' : related same_shape (t_a_sigma_matrix (E := E) n m a s) (t_a_sigma_matrix n m a' s').
Proof.
  eapply related_weaken; [|intros x y; apply shape_of_any]. unfold t_a_sigma_matrix. apply related_mapM_same. intros j.
  apply related_mapM_same. intros i. eapply related_tout; [apply index2_trace|]. intros x x' _.
  eapply related_tout; [apply index2_trace|]. intros y y' _. apply related_ret. exact I.
Qed.
Lemma a_square_trace n m a a' : related same_shape (t_a_square_matrix (E := E) n m a) (t_a_square_matrix n m a').
Proof.
  eapply related_weaken; [|intros x y; apply shape_of_any]. unfold t_a_square_matrix. apply related_mapM_same. intros j.
  apply related_mapM_same. intros i. eapply related_tout; [apply index2_trace|]. intros x x' _. apply related_ret. exact I.
Qed.
Lemma rotate_len c c' r r' : same_len c c' -> rotate_right1 c = Ok r -> rotate_right1 c' = Ok r' -> same_len r r'.
Proof.
  unfold same_len, rotate_right1. intros H Hr Hr'.
  destruct (rev c) as [|x l] eqn:Ec; [discriminate|]. destruct (rev c') as [|x' l'] eqn:Ec'; [discriminate|].
  injection Hr as <-. injection Hr' as <-. apply (f_equal (@length _)) in Ec, Ec'. rewrite rev_length in Ec, Ec'.
  cbn in *. rewrite !rev_length. congruence.
Qed.
Lemma combine_map_len {A B C D F G} (f : A * B -> C) (g : D * F -> G) (a : list A) (b : list B) (d : list D) (e : list F) :
  same_len a d -> same_len b e -> same_len (map f (combine a b)) (map g (combine d e)).
Proof. unfold same_len. rewrite !map_length, !combine_length. congruence. Qed.
Lemma convolve_trace a a' s s' kd j c c' : same_len c c' ->
  related same_len (t_convolve (E := E) a s kd j c) (t_convolve a' s' kd j c').
Proof.
  intros Hc. unfold t_convolve. eapply related_tout; [apply (related_index_all eq kd kd), Forall2_eq|]. intros kj ? <-.
  eapply related_tout; [apply index2_trace|]. intros x x' _. apply related_emit; [unfold same_len in Hc; rewrite Hc; reflexivity|].
  cbv zeta. eapply related_tout with (P := same_len).
  - apply related_pure; [unfold same_len in Hc; rewrite Hc; reflexivity|]. intros r r'. apply rotate_len. exact Hc.
  - intros r r' Hr. eapply related_tout; [apply index2_trace|]. intros y y' _.
    apply related_emit; [unfold same_len in Hr; rewrite Hr; reflexivity|]. apply related_ret.
    apply combine_map_len; unfold same_len; rewrite !map_length; assumption.
Qed.
Lemma convolve_all_trace a a' s s' kd js c c' : same_len c c' ->
  related same_len (t_convolve_all (E := E) a s kd js c) (t_convolve_all a' s' kd js c').
Proof.
  revert c c'. induction js as [|j js IH]; intros c c' Hc; cbn [t_convolve_all].
  - apply related_ret. exact Hc.
  - eapply related_tout; [apply convolve_trace; exact Hc|]. intros x y Hxy. apply IH. exact Hxy.
Qed.
Lemma poly_trace m a a' s s' kd : related same_len (t_poly_coefficients (E := E) m a s kd) (t_poly_coefficients m a' s' kd).
Proof.
  unfold t_poly_coefficients. eapply related_tout; [apply related_same|].
  intros c ? <-. apply related_emit; [reflexivity|]. cbv zeta.
  eapply related_tout; [apply (related_index_all eq kd kd), Forall2_eq|]. intros k0 ? <-.
  eapply related_tout; [apply index2_trace|]. intros x x' _.
  eapply related_tout; [apply related_set; reflexivity|]. intros l l' Hl.
  eapply related_tout; [apply index2_trace|]. intros y y' _.
  eapply related_tout; [apply related_set; exact Hl|]. intros l2 l2' Hl2.
  apply related_emit; [reflexivity|]. apply convolve_all_trace. exact Hl2.
Qed.
Lemma p_loop_trace fuel m a a' s s' it kd : related same_shape (t_p_loop (E := E) fuel m a s it kd) (t_p_loop fuel m a' s' it kd).
Proof.
  revert it kd. induction fuel as [|fuel IH]; intros it kd; cbn [t_p_loop].
  - intros x y Hx. discriminate.
  - assert (Hb : forall (x y : traced (E := E) (outcome proof_error (list (list scalar)))), related same_shape x y ->
               related same_shape (tbind (t_gray_next (E := E) it) (fun _ => x)) (tbind (t_gray_next (E := E) it) (fun _ => y))).
    { intros x y Hxy u v Hu Hv. destruct (Hxy u v Hu Hv) as [Ht Hs]. split; [|exact Hs]. cbn [tbind leakage fst snd]. f_equal. exact Ht. }
    assert (Hx : forall g g' : option (nat * N * N) * gray_iter -> traced (E := E) (outcome proof_error (list (list scalar))),
               related same_shape (g (gray_next it)) (g' (gray_next it)) ->
               related same_shape (tbind (t_gray_next (E := E) it) g) (tbind (t_gray_next (E := E) it) g')).
    { intros g g' H. exact (Hb (g (gray_next it)) (g' (gray_next it)) H). }
    apply Hx. destruct (gray_next it) as [[[[i old] new]|] it'].
    + eapply related_tout with (P := eq).
      { apply related_pure; [reflexivity|]. intros x y H1 H2. congruence. }
      intros kd' ? <-. eapply related_tout; [apply poly_trace|]. intros c c' Hc. eapply related_tout; [apply IH|]. intros r r' Hr.
      apply related_ret. constructor; assumption.
    + apply related_ret. constructor.
Qed.
Lemma p_vector_trace n m a a' s s' : related same_shape (t_p_vector (E := E) n m a s) (t_p_vector n m a' s').
Proof.
  unfold t_p_vector. apply related_emit; [reflexivity|]. eapply related_tout; [apply related_same|].
  intros it ? <-. apply p_loop_trace.
Qed.
Lemma p_column_trace p p' j : same_shape p p' -> related same_len (t_p_column (E := E) p j) (t_p_column p' j).
Proof.
  intros H. eapply related_weaken; [|intros x y; apply Forall2_any_len]. unfold t_p_column.
  apply related_mapM with (R := same_len); [exact H|]. intros x y _. apply related_index.
Qed.
Lemma enumerate_related {A B} (l : list A) (l' : list B) : same_len l l' ->
  Forall2 (fun x y => fst x = fst y) (combine (seq 0 (length l)) l) (combine (seq 0 (length l')) l').
Proof.
  unfold same_len. generalize 0%nat. revert l'. induction l as [|x l IH]; intros [|y l'] k H; try discriminate; constructor; [reflexivity|].
  cbn in H. injection H as H. apply IH. exact H.
Qed.
Lemma X_vector_trace p p' (M M' : list (pt E)) G G' rho rho' : same_shape p p' -> same_len M M' -> same_len rho rho' ->
  related same_len (t_X_vector ConstantTime p M G rho) (t_X_vector ConstantTime p' M' G' rho').
Proof.
  intros Hp HM Hr. eapply related_weaken; [|intros x y; apply Forall2_any_len]. unfold t_X_vector.
  apply related_mapM with (R := fun x y => fst x = fst y); [apply enumerate_related; exact Hr|].
  intros [j x] [j' x'] Hj. cbn in Hj. subst j'. cbn [fst snd].
  eapply related_tout; [apply p_column_trace; exact Hp|]. intros c c' Hc. apply related_pure; [|intros; exact I].
  apply msm_trace; apply app_len; assumption || reflexivity.
Qed.
Lemma f_matrix_trace n m a a' s s' xs xs' : related any (t_f_matrix (E := E) n m a s xs) (t_f_matrix n m a' s' xs').
Proof.
  eapply related_weaken; [|intros; exact I]. unfold t_f_matrix. apply (related_mapM_same (Forall2 any)). intros j.
  apply (related_mapM_same any). intros i. eapply related_tout; [apply index2_trace|]. intros x x' _.
  eapply related_tout; [apply related_index|]. intros y y' _. eapply related_tout; [apply index2_trace|]. intros z z' _.
  apply related_ret. exact I.
Qed.
Lemma z_response_trace m r r' rho rho' xs xs' : same_len rho rho' -> same_len xs xs' ->
  related any (t_z_response (E := E) m r rho xs) (t_z_response m r' rho' xs').
Proof.
  intros Hr Hx. unfold t_z_response. eapply related_tout; [apply related_index|]. intros x x' _.
  apply related_emit; [rewrite !combine_length; unfold same_len in *; rewrite Hr, Hx; reflexivity|]. apply related_ret. exact I.
Qed.
Lemma powers_trace k xi xi' p p' : related same_len (t_powers_loop (E := E) k xi p) (t_powers_loop k xi' p').
Proof.
  revert p p'. induction k as [|k IH]; intros p p'; cbn [t_powers_loop].
  - apply related_ret. reflexivity.
  - eapply related_tout; [apply related_check|]. intros _ _ _. eapply related_tout; [apply IH|]. intros r r' Hr.
    apply related_ret. unfold same_len in *. cbn. congruence.
Qed.
Lemma challenge_powers_trace m xi xi' : related same_len (t_challenge_powers (E := E) m xi) (t_challenge_powers m xi').
Proof.
  unfold t_challenge_powers. eapply related_tout; [apply related_same|].
  intros c ? <-. apply related_emit; [reflexivity|]. apply powers_trace.
Qed.
Lemma draws_len k g g' : same_len (fst (draws (E := E) k g)) (fst (draws (E := E) k g')).
Proof.
  revert g g'. induction k as [|k IH]; intros g g'; [reflexivity|]. cbn [draws].
  destruct (draw g) as [s1 g1], (draw g') as [s1' g1']. specialize (IH g1 g1').
  destruct (draws k g1), (draws k g1'). unfold same_len in *. cbn in *. congruence.
Qed.
Lemma draw_rows_shape m n g g' : same_shape (fst (draw_rows (E := E) m n g)) (fst (draw_rows (E := E) m n g')).
Proof.
  revert g g'. induction m as [|m IH]; intros g g'; [constructor|]. cbn [draw_rows].
  pose proof (draws_len n g g') as H. destruct (draws n g) as [r g1], (draws n g') as [r' g1']. specialize (IH g1 g1').
  destruct (draw_rows m n g1), (draw_rows m n g1'). constructor; assumption.
Qed.

End LeakFacts.
