(** Extraction of a ring position from the openings of the matrix commitments. *)
From Verif Require Export Extractor CoreProver.
From Verif Require Import Prime.

Lemma mat_concat {n} : forall m F j i, shape m n F -> (j < m)%nat -> (i < n)%nat ->
  nth (j * n + i) (concat F) s0 = mat F j i.
Proof.
  intros m F. revert m. induction F as [|row F IH]; intros m j i [Hl Hf] Hj Hi.
  - cbn in Hl. lia.
  - inversion Hf as [|? ? Hrow Hrest]; subst. cbn [concat]. destruct j as [|j].
    + rewrite app_nth1 by lia. reflexivity.
    + rewrite app_nth2 by lia. replace (S j * length row + i - length row)%nat with (j * length row + i)%nat by lia.
      rewrite (IH (length F)); [reflexivity|split; [reflexivity|exact Hrest]|cbn in Hj; lia|exact Hi].
Qed.

Lemma nth_zip (f : scalar * scalar -> scalar) : forall u v i, length u = length v -> (i < length u)%nat ->
  nth i (map f (combine u v)) s0 = f (nth i u s0, nth i v s0).
Proof.
  intros u v i Hl Hi. rewrite (nth_map f _ i s0 (s0, s0)) by (rewrite combine_length; lia).
  rewrite combine_nth by exact Hl. reflexivity.
Qed.

Lemma zip_length {A B C} (f : A * B -> C) u v : length u = length v -> length (map f (combine u v)) = length u.
Proof. intros H. rewrite map_length, combine_length. lia. Qed.

Lemma nonzero_vector_spec v : nonzero_vector v = true <-> Exists (fun x => x <> s0) v.
Proof.
  unfold nonzero_vector. rewrite existsb_exists, Exists_exists. split; intros (x & H1 & H2); exists x; split; try exact H1.
  - apply negb_true_iff in H2. apply seqb_neq. exact H2.
  - apply negb_true_iff. apply seqb_neq. exact H2.
Qed.

Lemma nonzero_vector_false v : nonzero_vector v = false <-> Forall (fun x => x = s0) v.
Proof.
  split; intros H.
  - apply Forall_forall. intros x Hx. destruct (scalar_eq_dec x s0) as [E|E]; [exact E|].
    assert (nonzero_vector v = true) by (apply nonzero_vector_spec, Exists_exists; eauto). congruence.
  - destruct (nonzero_vector v) eqn:E; [|reflexivity]. apply nonzero_vector_spec, Exists_exists in E.
    destruct E as (x & Hx & Hn). rewrite Forall_forall in H. elim Hn. apply H; exact Hx.
Qed.

Lemma find_none_iff {A} (f : A -> bool) l : find f l = None -> forall x, In x l -> f x = false.
Proof. intros H x Hx. exact (find_none f l H x Hx). Qed.

(** * Lines *)
Section Lines.
Context {E : env} (L : env_laws E).

Lemma lincomb_zip c d : forall u v (ps : list (pt E)), length u = length v ->
  lincomb (map (fun uv => c * fst uv + d * snd uv)%sc (combine u v)) ps = padd E (pmul E c (lincomb u ps)) (pmul E d (lincomb v ps)).
Proof.
  induction u as [|x u IH]; intros [|y v] ps Hl; try discriminate.
  - cbn [combine map]. rewrite !lincomb_nil_l. module L.
  - destruct ps as [|p ps]; [rewrite !lincomb_nil_r; module L|].
    cbn [combine map fst snd]. rewrite !lincomb_cons. rewrite IH by (cbn in Hl; lia). module L.
Qed.

Lemma zip_ext (f g : scalar * scalar -> scalar) u v : (forall x y, f (x, y) = g (x, y)) -> map f (combine u v) = map g (combine u v).
Proof. intros H. apply map_ext. intros [x y]. apply H. Qed.

Lemma line_deviation (gens : list (pt E)) (P Q : pt E) x0 x1 x v0 v1 v :
  x0 <> x1 -> length v1 = length v0 -> length v = length v0 ->
  lincomb v0 gens = padd E P (pmul E x0 Q) -> lincomb v1 gens = padd E P (pmul E x1 Q) ->
  lincomb v gens = padd E P (pmul E x Q) ->
  lincomb (vsub v (on_line (intercept x0 v0 (slope x0 x1 v0 v1)) (slope x0 x1 v0 v1) x)) gens = pid E.
Proof.
  intros Hx H1 Hv E0 E1 Ev.
  assert (Hd : (x0 - x1)%sc <> s0) by (intros Hz; apply Hx; apply ssub_eq_0; exact Hz).
  assert (Hs : lincomb (slope x0 x1 v0 v1) gens = Q).
  { unfold slope. rewrite (zip_ext _ (fun uv => sinv (x0 - x1) * fst uv + (- sinv (x0 - x1)) * snd uv)%sc).
    - rewrite lincomb_zip by lia. rewrite E0, E1.
      replace Q with (pmul E (sinv (x0 - x1) * (x0 - x1))%sc Q) at 3 by (rewrite (sinv_l _ Hd); apply (pmul_1_l E L)).
      module L.
    - intros a b. cbn [fst snd]. field. exact Hd. }
  assert (Hsl : length (slope x0 x1 v0 v1) = length v0) by (unfold slope; apply zip_length; lia).
  assert (Hi : lincomb (intercept x0 v0 (slope x0 x1 v0 v1)) gens = P).
  { unfold intercept. rewrite (zip_ext _ (fun uv => s1 * fst uv + (- x0) * snd uv)%sc).
    - rewrite lincomb_zip by lia. rewrite E0, Hs. module L.
    - intros a b. cbn [fst snd]. ring. }
  assert (Hil : length (intercept x0 v0 (slope x0 x1 v0 v1)) = length v0) by (unfold intercept; apply zip_length; lia).
  assert (Hol : length (on_line (intercept x0 v0 (slope x0 x1 v0 v1)) (slope x0 x1 v0 v1) x) = length v0)
    by (unfold on_line; rewrite zip_length; lia).
  rewrite (lincomb_vsub L) by lia. apply (psub_0 L). rewrite Ev.
  unfold on_line. rewrite (zip_ext _ (fun uv => s1 * fst uv + x * snd uv)%sc).
  - rewrite lincomb_zip by lia. rewrite Hi, Hs. module L.
  - intros a b. cbn [fst snd]. ring.
Qed.

Lemma deviations_relation op (ans : list answer) (gens : list (pt E)) (P Q : pt E) k :
  NoDup (map an_x ans) -> Forall (fun an => length (op an) = k) ans ->
  Forall (fun an => lincomb (op an) gens = padd E P (pmul E (an_x an) Q)) ans ->
  forall v, In v (deviations op ans) -> length v = k /\ lincomb v gens = pid E.
Proof.
  intros Hnd Hlen Heq v Hv. destruct ans as [|an0 [|an1 ans]]; cbn [deviations] in Hv; try contradiction.
  assert (Hx : an_x an0 <> an_x an1).
  { inversion Hnd as [|? ? Hn _]. intros Heqx. apply Hn. left. symmetry. exact Heqx. }
  apply in_map_iff in Hv. destruct Hv as (an & <- & Hin).
  rewrite Forall_forall in Hlen, Heq.
  pose proof (Hlen an0 ltac:(left; reflexivity)) as L0. pose proof (Hlen an1 ltac:(right; left; reflexivity)) as L1.
  pose proof (Hlen an Hin) as La.
  split.
  - rewrite vsub_length; [exact La|]. unfold on_line, intercept, slope. rewrite !zip_length; rewrite ?zip_length; rewrite ?zip_length; lia.
  - apply (line_deviation gens P Q); try lia; try exact Hx; apply Heq; [left|right; left|exact Hin]; reflexivity.
Qed.

End Lines.

Lemma deviations_zero op an0 an1 (ans : list answer) k :
  Forall (fun an => length (op an) = k) (an0 :: an1 :: ans) ->
  (forall v, In v (deviations op (an0 :: an1 :: ans)) -> nonzero_vector v = false) ->
  forall an, In an (an0 :: an1 :: ans) -> forall i, (i < k)%nat ->
  let b := ((nth i (op an0) s0 - nth i (op an1) s0) / (an_x an0 - an_x an1))%sc in
  nth i (op an) s0 = (nth i (op an0) s0 - an_x an0 * b + an_x an * b)%sc.
Proof.
  intros Hlen Hz an Hin i Hi b. rewrite Forall_forall in Hlen.
  pose proof (Hlen an0 ltac:(left; reflexivity)) as L0. pose proof (Hlen an1 ltac:(right; left; reflexivity)) as L1.
  pose proof (Hlen an Hin) as La.
  set (bv := slope (an_x an0) (an_x an1) (op an0) (op an1)).
  assert (Lb : length bv = k) by (unfold bv, slope; rewrite zip_length; lia).
  set (av := intercept (an_x an0) (op an0) bv).
  assert (Lav : length av = k) by (unfold av, intercept; rewrite zip_length; lia).
  assert (Heq : op an = on_line av bv (an_x an)).
  { apply vsub_zero_eq; [unfold on_line; rewrite zip_length; lia|]. apply nonzero_vector_false. apply Hz.
    unfold deviations. apply in_map_iff. exists an. split; [reflexivity|exact Hin]. }
  rewrite Heq. unfold on_line. rewrite nth_zip by lia. cbn [fst snd].
  unfold av at 1, intercept. rewrite nth_zip by lia. cbn [fst snd].
  unfold bv, slope. rewrite !nth_zip by lia. cbn [fst snd]. reflexivity.
Qed.

(** * A quadratic with three roots *)
Lemma quadratic_roots (u v w x y z : scalar) : x <> y -> y <> z -> x <> z ->
  (u * x * x + v * x + w)%sc = s0 -> (u * y * y + v * y + w)%sc = s0 -> (u * z * z + v * z + w)%sc = s0 -> u = s0.
Proof.
  intros Hxy Hyz Hxz H1 H2 H3.
  assert (A1 : (u * (x + y) + v)%sc = s0).
  { destruct (smul_eq_0 (x - y) (u * (x + y) + v)) as [H|H]; [|elim Hxy; apply ssub_eq_0; exact H|exact H].
    replace ((x - y) * (u * (x + y) + v))%sc with ((u * x * x + v * x + w) - (u * y * y + v * y + w))%sc by ring.
    rewrite H1, H2. ring. }
  assert (A2 : (u * (y + z) + v)%sc = s0).
  { destruct (smul_eq_0 (y - z) (u * (y + z) + v)) as [H|H]; [|elim Hyz; apply ssub_eq_0; exact H|exact H].
    replace ((y - z) * (u * (y + z) + v))%sc with ((u * y * y + v * y + w) - (u * z * z + v * z + w))%sc by ring.
    rewrite H2, H3. ring. }
  destruct (smul_eq_0 (x - z) u) as [H|H]; [|elim Hxz; apply ssub_eq_0; exact H|exact H].
  replace ((x - z) * u)%sc with ((u * (x + y) + v) - (u * (y + z) + v))%sc by ring. rewrite A1, A2. ring.
Qed.

(** * Exactly one marked entry *)

Lemma smk_plus a b : smk (a + b) = (smk a + smk b)%sc.
Proof. change (smk a + smk b)%sc with (smk (sval (smk a) + sval (smk b))). apply smk_eq. rewrite !sval_smk, <- Zplus_mod. reflexivity. Qed.

Lemma sum_bits (h : nat -> scalar) l : (forall i, In i l -> h i = s0 \/ h i = s1) ->
  ssum (map h l) = smk (Z.of_nat (length (filter (fun i => seqb (h i) s1) l))).
Proof.
  induction l as [|i l IH]; intros H; [reflexivity|]. cbn [map filter]. rewrite ssum_cons.
  rewrite IH by (intros k Hk; apply H; right; exact Hk).
  destruct (H i ltac:(left; reflexivity)) as [Hi|Hi]; rewrite Hi.
  - replace (seqb s0 s1) with false by (symmetry; apply seqb_neq; intros He; exact (s1_neq_s0 (eq_sym He))). ring.
  - rewrite seqb_refl. cbn [length]. rewrite Nat2Z.inj_succ. replace (Z.succ _) with (1 + Z.of_nat (length (filter (fun i0 => seqb (h i0) s1) l)))%Z by lia.
    rewrite smk_plus. reflexivity.
Qed.

Lemma filter_le {A} (f : A -> bool) l : (length (filter f l) <= length l)%nat.
Proof. induction l as [|x l IH]; cbn; [lia|]. destruct (f x); cbn; lia. Qed.

Lemma one_marked (h : nat -> scalar) n : (Z.of_nat n < ell)%Z ->
  (forall i, (i < n)%nat -> h i = s0 \/ h i = s1) -> ssum (map h (seq 0 n)) = s1 ->
  exists d, (d < n)%nat /\ forall i, (i < n)%nat -> h i = if Nat.eqb i d then s1 else s0.
Proof.
  intros Hn Hbit Hsum. rewrite sum_bits in Hsum by (intros i Hi; apply Hbit; apply in_seq in Hi; lia).
  set (fl := filter (fun i => seqb (h i) s1) (seq 0 n)) in *.
  assert (Hlen : (length fl <= n)%nat).
  { unfold fl. rewrite <- (seq_length n 0) at 2. apply filter_le. }
  assert (H1 : length fl = 1%nat).
  { apply (f_equal sval) in Hsum. change s1 with (smk 1) in Hsum. rewrite !sval_smk in Hsum.
    rewrite !Z.mod_small in Hsum; [lia| |lia]. split; [lia|reflexivity]. }
  destruct fl as [|d [|? ?]] eqn:Hfl; try discriminate H1. exists d.
  assert (Hd : In d (filter (fun i => seqb (h i) s1) (seq 0 n))) by (fold fl; rewrite Hfl; left; reflexivity).
  apply filter_In in Hd. destruct Hd as [Hd Hd1]. apply in_seq in Hd. apply seqb_eq in Hd1.
  split; [lia|]. intros i Hi. destruct (Nat.eqb_spec i d) as [->|Hne]; [exact Hd1|].
  destruct (Hbit i Hi) as [H0|Hi1]; [exact H0|].
  assert (Hin : In i fl). { unfold fl. apply filter_In. split; [apply in_seq; lia|]. apply seqb_eq. exact Hi1. }
  rewrite Hfl in Hin. destruct Hin as [Hin|[]]. congruence.
Qed.

Lemma choose_digits (n : N) m (P : nat -> nat -> Prop) : (forall j, (j < m)%nat -> exists d, (d < N.to_nat n)%nat /\ P j d) ->
  exists ds : list N, length ds = m /\ Forall (fun d => (d < n)%N) ds /\ forall j, (j < m)%nat -> P j (N.to_nat (nth j ds 0%N)).
Proof.
  revert P. induction m as [|m IH]; intros P H.
  - exists []. split; [reflexivity|]. split; [constructor|]. intros j Hj. lia.
  - destruct (H 0%nat ltac:(lia)) as (d & Hd & Hp).
    destruct (IH (fun j => P (S j))) as (ds & H1 & H2 & H3); [intros j Hj; apply H; lia|].
    exists (N.of_nat d :: ds). split; [cbn; lia|]. split; [constructor; [lia|exact H2]|].
    intros [|j] Hj; cbn [nth]; [rewrite Nat2N.id; exact Hp|apply H3; lia].
Qed.

(** * The position *)
Section Position.
Context {E : env} (L : env_laws E).

(** Valid answers to one first message. *)
Definition valid_answer (CG : list (pt E)) (CH A B C D : pt E) (m n : nat) (an : answer) : Prop :=
  shape m n (an_F an) /\
  (forall j, (j < m)%nat -> ssum (nth j (an_F an) []) = an_x an) /\
  com CG CH (an_F an) (an_zA an) = padd E A (pmul E (an_x an) B) /\
  com CG CH (map (map (fun y => y * (an_x an - y))%sc) (an_F an)) (an_zC an) = padd E (pmul E (an_x an) C) D.

Lemma com_opening (CG : list (pt E)) CH F z : length (concat F) = length CG -> com CG CH F z = lincomb (concat F ++ [z]) (CG ++ [CH]).
Proof. intros H. unfold com. rewrite (lincomb_app L) by exact H. rewrite (lincomb_single L). reflexivity. Qed.

Lemma map_map_shape {A B} m n (g : A -> B) F : shape m n F -> shape m n (map (map g) F).
Proof.
  intros [H1 H2]. split; [rewrite map_length; exact H1|]. apply Forall_forall. intros r Hr. apply in_map_iff in Hr.
  destruct Hr as (r' & <- & Hr'). rewrite map_length. rewrite Forall_forall in H2. apply H2; exact Hr'.
Qed.

Lemma mat_map m n (g : scalar -> scalar) F j i : shape m n F -> (j < m)%nat -> (i < n)%nat ->
  mat (map (map g) F) j i = g (mat F j i).
Proof.
  intros Hs Hj Hi. unfold mat. rewrite (nth_map (map g) F j [] []) by (destruct Hs; lia).
  rewrite (nth_map g _ i s0 s0); [reflexivity|]. rewrite (shape_row m n F j [] Hs Hj). exact Hi.
Qed.

Lemma row_sum_mat m n F j : shape m n F -> (j < m)%nat -> ssum (nth j F []) = ssum (map (mat F j) (seq 0 n)).
Proof.
  intros Hs Hj. rewrite <- (map_nth_seq (nth j F []) s0) at 1. rewrite (shape_row m n F j [] Hs Hj). reflexivity.
Qed.

Lemma extract_position_sound (n : N) (m : nat) (CG : list (pt E)) CH A B C D ans :
  (2 <= n)%N -> (2 <= m)%nat -> (n ^ N.of_nat m < u32_bound)%N -> length CG = (m * N.to_nat n)%nat ->
  (3 <= length ans)%nat -> NoDup (map an_x ans) ->
  Forall (valid_answer CG CH A B C D m (N.to_nat n)) ans ->
  match extract_position n m (N.to_nat n ^ m) ans with
  | Broken cs => is_relation CG CH cs
  | Witnessed l => (l < n ^ N.of_nat m)%N /\
      exists a : nat -> nat -> scalar, forall an, In an ans -> forall j i, (j < m)%nat -> (i < N.to_nat n)%nat ->
        mat (an_F an) j i = (sigma_at n l j i * an_x an + a j i)%sc
  end.
Proof.
  intros Hn Hm Hpow HCG H3 Hnd Hval. unfold extract_position.
  assert (HlA : Forall (fun an => length (opening_A an) = S (m * N.to_nat n)) ans).
  { eapply Forall_impl; [|exact Hval]. intros an (Hs & _). unfold opening_A. rewrite app_length.
    rewrite (concat_shape_length _ _ _ Hs). cbn. lia. }
  assert (HlC : Forall (fun an => length (opening_C an) = S (m * N.to_nat n)) ans).
  { eapply Forall_impl; [|exact Hval]. intros an (Hs & _). unfold opening_C. rewrite app_length.
    rewrite (concat_shape_length _ _ _ (map_map_shape _ _ _ _ Hs)). cbn. lia. }
  destruct (find nonzero_vector _) as [cs|] eqn:Hfind.
  - apply find_some in Hfind. destruct Hfind as [Hin Hnz].
    assert (Hrel : length cs = S (m * N.to_nat n) /\ lincomb cs (CG ++ [CH]) = pid E).
    { apply in_app_iff in Hin. destruct Hin as [Hin|Hin].
      - apply (deviations_relation L opening_A ans (CG ++ [CH]) A B); try assumption.
        eapply Forall_impl; [|exact Hval]. intros an (Hs & _ & HA & _). rewrite <- HA. unfold opening_A. symmetry. apply com_opening.
        rewrite (concat_shape_length _ _ _ Hs). lia.
      - apply (deviations_relation L opening_C ans (CG ++ [CH]) D C); try assumption.
        eapply Forall_impl; [|exact Hval]. intros an (Hs & _ & _ & HC). rewrite (padd_comm E L D). rewrite <- HC.
        unfold opening_C. symmetry. apply com_opening.
        rewrite (concat_shape_length _ _ _ (map_map_shape _ _ _ _ Hs)). lia. }
    destruct Hrel as [H1 H2]. split; [rewrite app_length, H1, HCG; cbn; lia|]. split; [|exact H2].
    apply nonzero_vector_spec. exact Hnz.
  - pose proof (find_none_iff _ _ Hfind) as Hz.
    destruct ans as [|an0 [|an1 [|an2 ans]]]; cbn [length] in H3; try lia.
    set (all := an0 :: an1 :: an2 :: ans) in *.
    assert (I0 : In an0 all) by (left; reflexivity). assert (I1 : In an1 all) by (right; left; reflexivity).
    assert (I2 : In an2 all) by (right; right; left; reflexivity).
    rewrite Forall_forall in Hval.
    assert (Hx01 : an_x an0 <> an_x an1).
    { inversion Hnd as [|? ? Hq _]. intros He. apply Hq. left. symmetry; exact He. }
    assert (Hx02 : an_x an0 <> an_x an2).
    { inversion Hnd as [|? ? Hq _]. intros He. apply Hq. right; left. symmetry; exact He. }
    assert (Hx12 : an_x an1 <> an_x an2).
    { inversion Hnd as [|? ? _ Hnd']. inversion Hnd' as [|? ? Hq _]. intros He. apply Hq. left. symmetry; exact He. }
    set (b := slope_entry all).
    set (a := fun j i => (mat (an_F an0) j i - an_x an0 * b j i)%sc).
    assert (HF : forall an, In an all -> forall j i, (j < m)%nat -> (i < N.to_nat n)%nat ->
                 mat (an_F an) j i = (a j i + an_x an * b j i)%sc).
    { intros an Hin j i Hj Hi.
      assert (Hpos : (j * N.to_nat n + i < m * N.to_nat n)%nat) by nia.
      assert (Hop : forall an', In an' all -> nth (j * N.to_nat n + i) (opening_A an') s0 = mat (an_F an') j i).
      { intros an' Hin'. destruct (Hval an' Hin') as (Hs & _). unfold opening_A.
        rewrite app_nth1 by (rewrite (concat_shape_length _ _ _ Hs); exact Hpos). apply (mat_concat m); assumption. }
      rewrite <- (Hop an Hin).
      rewrite (deviations_zero opening_A an0 an1 (an2 :: ans) (S (m * N.to_nat n)) HlA) by
        (try assumption; try lia; intros v Hv; apply Hz; apply in_or_app; left; exact Hv).
      rewrite !Hop by assumption. reflexivity. }
    assert (Hbit : forall j i, (j < m)%nat -> (i < N.to_nat n)%nat -> b j i = s0 \/ b j i = s1).
    { intros j i Hj Hi.
      assert (Hpos : (j * N.to_nat n + i < m * N.to_nat n)%nat) by nia.
      assert (Hop : forall an', In an' all -> nth (j * N.to_nat n + i) (opening_C an') s0
                     = (mat (an_F an') j i * (an_x an' - mat (an_F an') j i))%sc).
      { intros an' Hin'. destruct (Hval an' Hin') as (Hs & _). unfold opening_C.
        rewrite app_nth1 by (rewrite (concat_shape_length _ _ _ (map_map_shape _ _ _ _ Hs)); exact Hpos).
        rewrite (mat_concat m) by (try assumption; apply map_map_shape; exact Hs). apply (mat_map m (N.to_nat n)); assumption. }
      set (c := ((nth (j * N.to_nat n + i) (opening_C an0) s0 - nth (j * N.to_nat n + i) (opening_C an1) s0) / (an_x an0 - an_x an1))%sc).
      set (d := (nth (j * N.to_nat n + i) (opening_C an0) s0 - an_x an0 * c)%sc).
      assert (Hq : forall an, In an all ->
        ((b j i * (s1 - b j i)) * an_x an * an_x an + (a j i - (s1 + s1) * a j i * b j i - c) * an_x an + (- (a j i * a j i) - d))%sc = s0).
      { intros an Hin. pose proof (deviations_zero opening_C an0 an1 (an2 :: ans) (S (m * N.to_nat n)) HlC
          ltac:(intros v Hv; apply Hz; apply in_or_app; right; exact Hv) an Hin (j * N.to_nat n + i) ltac:(lia)) as Hdev.
        cbv zeta in Hdev. fold c in Hdev. fold d in Hdev. rewrite (Hop an Hin) in Hdev. rewrite (HF an Hin j i Hj Hi) in Hdev.
        apply ssub_eq_0 in Hdev. rewrite <- Hdev. ring. }
      pose proof (quadratic_roots _ _ _ _ _ _ Hx01 Hx12 Hx02 (Hq an0 I0) (Hq an1 I1) (Hq an2 I2)) as Hb.
      apply smul_eq_0 in Hb. destruct Hb as [Hb|Hb]; [left; exact Hb|right]. symmetry. apply ssub_eq_0. exact Hb. }
    assert (Hsum : forall j, (j < m)%nat -> ssum (map (b j) (seq 0 (N.to_nat n))) = s1).
    { intros j Hj.
      assert (Hrow : forall an, In an all -> (ssum (map (a j) (seq 0 (N.to_nat n))) + an_x an * ssum (map (b j) (seq 0 (N.to_nat n))))%sc = an_x an).
      { intros an Hin. destruct (Hval an Hin) as (Hs & Hr & _). rewrite <- (Hr j Hj).
        rewrite (row_sum_mat m (N.to_nat n)) by assumption. rewrite <- ssum_scale_f, <- ssum_add_f. apply ssum_ext.
        intros i Hi. apply in_seq in Hi. rewrite (HF an Hin j i Hj) by lia.
        destruct (Hval an Hin) as (_ & Hr' & _). rewrite <- (row_sum_mat m (N.to_nat n)) by assumption.
        rewrite Hr' by assumption. ring. }
      pose proof (Hrow an0 I0) as R0. pose proof (Hrow an1 I1) as R1.
      set (sa := ssum (map (a j) _)) in *. set (sb := ssum (map (b j) _)) in *.
      destruct (smul_eq_0 (an_x an0 - an_x an1) (sb - s1)) as [H|H].
      - replace ((an_x an0 - an_x an1) * (sb - s1))%sc with ((sa + an_x an0 * sb) - (sa + an_x an1 * sb) - (an_x an0 - an_x an1))%sc by ring.
        rewrite R0, R1. ring.
      - elim Hx01. apply ssub_eq_0. exact H.
      - apply ssub_eq_0. exact H. }
    assert (Hell : (Z.of_nat (N.to_nat n) < ell)%Z).
    { assert (n <= n ^ N.of_nat m)%N by (apply n_le_pow; lia). unfold u32_bound in Hpow.
      assert (2 ^ 32 < ell)%Z by reflexivity. change (2 ^ 32)%Z with (Z.of_N (2 ^ 32)) in *. lia. }
    destruct (choose_digits n m (fun j d => forall i, (i < N.to_nat n)%nat -> b j i = if Nat.eqb i d then s1 else s0)) as (ds & D1 & D2 & D3).
    { intros j Hj. apply one_marked; [exact Hell|intros i Hi; apply Hbit; assumption|apply Hsum; exact Hj]. }
    destruct (gray_code_surj n Hn m ds D1 D2) as (l & Hl & Hgray).
    assert (Hdig : forall j, (j < m)%nat -> nth j ds 0%N = gray_digit n l j).
    { intros j Hj. rewrite <- Hgray. apply gray_digits_nth. exact Hj. }
    assert (Hb : forall j i, (j < m)%nat -> (i < N.to_nat n)%nat -> b j i = sigma_at n l j i).
    { intros j i Hj Hi. rewrite (D3 j Hj i Hi), Hdig by exact Hj. reflexivity. }
    assert (Hlt : forall v j, (N.to_nat (gray_digit n v j) < N.to_nat n)%nat).
    { intros v j. pose proof (gray_digit_lt n v j ltac:(lia)). lia. }
    assert (Hmark : forall k, (k < N.to_nat n ^ m)%nat -> marked n m b k = true <-> k = N.to_nat l).
    { intros k Hk. unfold marked. rewrite forallb_forall. split.
      - intros H. assert (Hg : gray_code n m (N.of_nat k) = gray_code n m l).
        { unfold gray_code. apply map_ext_in. intros j Hj. pose proof (H j Hj) as Hs. apply in_seq in Hj.
          apply seqb_eq in Hs. rewrite Hb in Hs by (try lia; apply Hlt).
          unfold sigma_at in Hs. destruct (Nat.eqb_spec (N.to_nat (gray_digit n (N.of_nat k) j)) (N.to_nat (gray_digit n l j))) as [He|He].
          + lia.
          + elim s1_neq_s0. symmetry. exact Hs. }
        apply gray_code_inj in Hg; try assumption; [lia|]. rewrite <- pow_nat_N in Hk. lia.
      - intros -> j Hj. apply in_seq in Hj. rewrite N2Nat.id. apply seqb_eq. rewrite Hb by (try lia; apply Hlt).
        unfold sigma_at. rewrite Nat.eqb_refl. reflexivity. }
    assert (Hpos : marked_position n m (N.to_nat n ^ m) b = l).
    { unfold marked_position. rewrite <- pow_nat_N in *.
      destruct (find (marked n m b) (seq 0 (N.to_nat (n ^ N.of_nat m)))) as [k|] eqn:Hf.
      - apply find_some in Hf. destruct Hf as [Hk Hmk]. apply in_seq in Hk. apply Hmark in Hmk; [lia|lia].
      - pose proof (find_none_iff _ _ Hf (N.to_nat l) ltac:(apply in_seq; lia)) as Hmk.
        rewrite (proj2 (Hmark (N.to_nat l) ltac:(lia)) eq_refl) in Hmk. discriminate. }
    fold b. rewrite Hpos. split; [exact Hl|]. exists a. intros an Hin j i Hj Hi. rewrite (HF an Hin j i Hj Hi), (Hb j i Hj Hi). ring.
Qed.

End Position.

(** * The key *)
Section Key.
Context {E : env} (L : env_laws E).

Lemma powers_snoc x m : powers x (S m) = powers x m ++ [spow x m].
Proof. unfold powers. rewrite seq_S, map_app. reflexivity. Qed.

Lemma interpolate_runs {R} (x z : R -> scalar) (runs : list R) (G P : pt E) (Qs : list (pt E)) m :
  length Qs = m -> length runs = S m -> NoDup (map x runs) ->
  (forall run, In run runs -> padd E (lincomb (powers (x run) m) Qs) (pmul E (spow (x run) m) P) = pmul E (z run) G) ->
  P = pmul E (extract_key (map x runs) (map z runs)) G.
Proof.
  intros HQ Hr Hnd H. unfold extract_key. apply (interpolate L (map x runs) (map z runs) G P Qs).
  - exact Hnd.
  - rewrite map_length; lia.
  - rewrite !map_length; reflexivity.
  - clear Hnd Hr. induction runs as [|run runs IH]; [constructor|]. cbn [map]. constructor.
    + rewrite HQ, powers_snoc, (lincomb_app L) by (rewrite powers_length; lia). rewrite (lincomb_single L).
      apply H. left; reflexivity.
    + apply IH. intros run' Hin. apply H. right; exact Hin.
Qed.

Lemma key_of_tag {R} (x z : R -> scalar) (runs : list R) (U J : pt E) (Y : list (pt E)) m :
  length Y = m -> length runs = S m -> NoDup (map x runs) ->
  (forall run, In run runs -> pmul E (spow (x run) m) U = padd E (lincomb (powers (x run) m) Y) (pmul E (z run) J)) ->
  pmul E (extract_key (map x runs) (map z runs)) J = U.
Proof.
  intros HY Hr Hnd H. symmetry. apply (interpolate_runs x z runs J U (map (popp E) Y) m); try assumption.
  - rewrite map_length; exact HY.
  - intros run Hin. rewrite (H run Hin).
    assert (Hneg : forall ss (ps : list (pt E)), lincomb ss (map (popp E) ps) = popp E (lincomb ss ps)).
    { induction ss as [|s ss IH]; intros [|p ps]; cbn [map]; rewrite ?lincomb_nil_l, ?lincomb_nil_r; try solve [module L].
      rewrite !lincomb_cons, IH. module L. }
    rewrite Hneg. module L.
Qed.

Lemma key_of_ring {R} (x z : R -> scalar) (F : R -> list (list scalar)) (runs : list R) n m l a (G : pt E) (M X : list (pt E)) :
  (2 <= n)%N -> (l < n ^ N.of_nat m)%N -> length M = (N.to_nat n ^ m)%nat -> length X = m ->
  length runs = S m -> NoDup (map x runs) ->
  (forall run, In run runs -> forall j i, (j < m)%nat -> (i < N.to_nat n)%nat ->
     mat (F run) j i = (sigma_at n l j i * x run + a j i)%sc) ->
  (forall run, In run runs ->
     lincomb (map (code_product n m (mat (F run))) (seq 0 (length M))) M
     = padd E (lincomb (powers (x run) m) X) (pmul E (z run) G)) ->
  nth (N.to_nat l) M (pid E) = pmul E (extract_key (map x runs) (map z runs)) G.
Proof.
  intros Hn Hl HM HX Hr Hnd HF Heq.
  set (coef := fun k => poly_prod (position_factors n m a (sigma_at n l) k)).
  set (Qs := map (fun j => psub (lincomb (map (fun k => nth j (coef k) s0) (seq 0 (length M))) M) (nth j X (pid E))) (seq 0 m)).
  apply (interpolate_runs x z runs G _ Qs m); try assumption.
  - unfold Qs. rewrite map_length, seq_length. reflexivity.
  - intros run Hin.
    assert (Hlow : lincomb (powers (x run) m) Qs =
      psub (lincomb (map (fun k => sdot (map (fun j => nth j (coef k) s0) (seq 0 m)) (powers (x run) m)) (seq 0 (length M))) M)
           (lincomb (powers (x run) m) X)).
    { pose proof (X_combination L (map coef (seq 0 (length M))) M (pid E) (repeat s0 m) m (x run) (repeat_length _ _)) as HXc.
      rewrite map_map in HXc.
      assert (Hsub : forall ss (ps qs : list (pt E)), length ps = length qs ->
        lincomb ss (map (fun pq => psub (fst pq) (snd pq)) (combine ps qs)) = psub (lincomb ss ps) (lincomb ss qs)).
      { induction ss as [|s ss IH]; intros [|p ps] [|q qs] Hlen; try discriminate Hlen; cbn [combine map];
          rewrite ?lincomb_nil_l, ?lincomb_nil_r; try solve [module L].
        rewrite !lincomb_cons, IH by (cbn in Hlen; lia). cbn [fst snd]. module L. }
      rewrite <- (map_nth_seq X (pid E)) at 1.
      set (T := map (fun j => lincomb (map (fun k => nth j (coef k) s0) (seq 0 (length M))) M) (seq 0 m)).
      assert (HT : lincomb (powers (x run) m) T =
        lincomb (map (fun k => sdot (map (fun j => nth j (coef k) s0) (seq 0 m)) (powers (x run) m)) (seq 0 (length M))) M).
      { transitivity (lincomb (powers (x run) m)
          (map (fun j => padd E (lincomb (map (fun row => nth j row s0) (map coef (seq 0 (length M)))) M)
                              (pmul E (nth j (repeat s0 m) s0) (pid E))) (seq 0 m))).
        - f_equal. unfold T. apply map_ext. intros j. rewrite map_map. rewrite (pmul_0_r L). rewrite (padd_0_r L). reflexivity.
        - rewrite HXc. rewrite (pmul_0_r L), (padd_0_r L). reflexivity. }
      rewrite <- HT. rewrite map_nth_seq. rewrite <- Hsub by (unfold T; rewrite map_length, seq_length; lia).
      f_equal. unfold Qs, T. apply (nth_ext _ _ (pid E) (pid E)).
      - rewrite !map_length, combine_length, map_length, seq_length. lia.
      - intros j Hj. rewrite map_length, seq_length in Hj. rewrite nth_map_seq by exact Hj.
        rewrite (nth_map _ _ j (pid E) (pid E, pid E)) by (rewrite combine_length, map_length, seq_length; lia).
        rewrite combine_nth by (rewrite map_length, seq_length; lia). cbn [fst snd]. rewrite nth_map_seq by exact Hj. reflexivity. }
    rewrite Hlow.
    rewrite (lincomb_ext (fun k => sdot _ _)
              (fun k => code_product n m (mat (F run)) k + (- spow (x run) m) * (if Nat.eqb k (N.to_nat l) then s1 else s0))%sc).
    + rewrite (lincomb_add L), (lincomb_scale_r L), (Heq run Hin).
      rewrite (lincomb_delta L) by (rewrite HM, <- pow_nat_N; lia). module L.
    + intros k Hk. apply in_seq in Hk. destruct (poly_position n m a (sigma_at n l) k) as (P1 & P2 & P3).
      rewrite poly_low by exact P1. unfold coef. rewrite P2, P3.
      rewrite (code_product_delta n m (sigma_at n l) l k Hn Hl) by (try lia; reflexivity).
      assert (Hcp : code_product n m (fun j i => sigma_at n l j i * x run + a j i)%sc k = code_product n m (mat (F run)) k).
      { unfold code_product. apply sprod_ext. intros j Hj. apply in_seq in Hj. symmetry. apply HF; [exact Hin|lia|].
        pose proof (gray_digit_lt n (N.of_nat k) j ltac:(lia)). lia. }
      rewrite Hcp. ring.
Qed.

End Key.
