(** Proofs of the properties of keyless proofs. *)
From Verif Require Export SpecKeyless ZK.
From Verif Require Import SpecPlainSound PlainFacts ProverFacts Completeness ProverApi.

Section Keyless.
Context {E : env} (L : env_laws E).

Lemma masks_honest (st : statement E) l r c xi j i : good_statement st -> good_coins st c ->
  (j < N.to_nat (get_m (st_get_params st)))%nat -> (i < N.to_nat (get_n (st_get_params st)))%nat ->
  masks_of (get_n (st_get_params st)) l xi (pf_f (honest_proof st l r c xi)) j i = mat (map balance (c_a c)) j i.
Proof.
  intros Hg Hc Hj Hi. unfold masks_of. rewrite (honest_complete st l r c xi Hg Hc).
  rewrite mat_mkmat by assumption. unfold response_entry. change (p_n (st_params st)) with (get_n (st_get_params st)). ring.
Qed.

Lemma coefficient_honest (st : statement E) l r c xi k j : good_statement st -> good_coins st c ->
  coefficient_of (st_get_params st) l xi (pf_f (honest_proof st l r c xi)) k j =
  nth j (poly_prod (position_factors (get_n (st_get_params st)) (N.to_nat (get_m (st_get_params st))) (mat (map balance (c_a c)))
                      (sigma_at (get_n (st_get_params st)) l) k)) s0.
Proof.
  intros Hg Hc. unfold coefficient_of. do 2 f_equal. unfold position_factors. apply map_ext_in. intros i Hi. apply in_seq in Hi.
  pose proof (gp_n _ (gs_params st Hg)) as Hn. f_equal. apply masks_honest; try assumption; [lia|].
  pose proof (gray_digit_lt (get_n (st_get_params st)) (N.of_nat k) i). change (p_n (st_params st)) with (get_n (st_get_params st)) in Hn. lia.
Qed.

Lemma tail_map {A} (f : nat -> A) m : tl (map f (seq 0 m)) = map f (seq 1 (m - 1)).
Proof. destruct m as [|m]; [reflexivity|]. cbn [seq map tl]. rewrite Nat.sub_succ, Nat.sub_0_r. reflexivity. Qed.
Lemma map_tail_nth {A} (f : nat -> scalar -> A) rho m : length rho = m ->
  map (fun j => f j (nth j rho s0)) (seq 1 (m - 1)) = map (fun x => f (fst x) (snd x)) (combine (seq 1 (length (tl rho))) (tl rho)).
Proof.
  intros <-. destruct rho as [|r0 rho]; [reflexivity|]. cbn [tl length]. rewrite Nat.sub_succ, Nat.sub_0_r.
  assert (H : forall d k, (forall j, nth (k + j) d s0 = nth j rho s0) ->
            map (fun j => f j (nth j d s0)) (seq k (length rho)) = map (fun x => f (fst x) (snd x)) (combine (seq k (length rho)) rho)).
  { clear. induction rho as [|x rho IH]; intros d k H; [reflexivity|]. cbn [length seq map combine fst snd]. f_equal.
    - f_equal. specialize (H 0%nat). rewrite Nat.add_0_r in H. exact H.
    - apply IH. intros j. specialize (H (S j)). cbn [nth] in H. rewrite <- H. f_equal. lia. }
  apply H. intros j. reflexivity.
Qed.

(** Every honest proof is a keyless one. *)
Lemma honest_keyless (st : statement E) l r c xi : good_statement st -> relation st l r -> good_coins st c ->
  let pf := honest_proof st l r c xi in
  pf = keyless_proof st l xi (pf_B pf) (pf_C pf) (pf_f pf) (pf_z_A pf) (pf_z_C pf) (pf_z pf)
         (map (fun rho => (pmul E rho (get_G (st_get_params st)), pmul E rho (st_get_J st))) (tl (c_rho c))).
Proof.
  intros Hg Hr Hc pf. pose proof (gp_m _ (gs_params st Hg)) as Hm.
  pose proof (honest_equations L st l r c xi Hg Hr Hc) as He. fold pf in He.
  destruct (honest_well_shaped st l r c xi) as (HX & HY & _). fold pf in HX, HY.
  apply (simulate_iff L) in He; [|unfold get_m; lia|exact HX|exact HY]. rewrite He at 1. unfold keyless_proof.
  change (st_params st) with (st_get_params st). change (is_M (st_input_set st)) with (get_keys (st_get_input_set st)).
  change (st_J st) with (st_get_J st). f_equal. unfold view_of. f_equal.
  - unfold pf at 1, honest_proof. cbn [pf_X]. rewrite tail_map.
    rewrite (map_tail_nth (fun j rho => padd E (lincomb (map (fun k => nth j (poly_prod (position_factors (get_n (st_get_params st)) (N.to_nat (get_m (st_get_params st)))
        (mat (map balance (c_a c))) (sigma_at (get_n (st_get_params st)) l) k)) s0) (seq 0 (length (get_keys (st_get_input_set st))))) (get_keys (st_get_input_set st)))
        (pmul E rho (get_G (st_get_params st))))) by exact (proj2 Hc).
    rewrite map_length. generalize 1%nat. generalize (tl (c_rho c)). intros rs.
    induction rs as [|x rs IH]; intros j; [reflexivity|]. cbn [length seq combine map fst snd]. apply f_equal2; [|apply IH].
    do 2 f_equal. apply map_ext. intros k. symmetry. apply coefficient_honest; assumption.
  - unfold pf at 1, honest_proof. cbn [pf_Y]. rewrite tail_map, map_map. cbn [snd].
    rewrite (map_tail_nth (fun _ rho => pmul E rho (st_get_J st))) by exact (proj2 Hc).
    generalize 1%nat. generalize (tl (c_rho c)). intros rs. induction rs as [|x rs IH]; intros k; [reflexivity|].
    cbn [length seq combine map snd]. f_equal. apply IH.
Qed.

(** Translating a list of points by a list of the same length that depends only on the position. *)
Lemma translate_unique (c : nat -> pt E) : forall k (X Y : list (pt E)), length X = length Y ->
  exists! pairs : list (pt E * pt E), length pairs = length X /\
    map (fun x => padd E (c (fst x)) (fst (snd x))) (combine (seq k (length pairs)) pairs) = X /\ map snd pairs = Y.
Proof.
  intros k X. revert k. induction X as [|x X IH]; intros k [|y Y] H; try discriminate.
  - exists []. split; [auto|]. intros [|q qs] (Hq & _); [reflexivity|discriminate].
  - destruct (IH (S k) Y ltac:(cbn in H; congruence)) as (ps & (H1 & H2 & H3) & Hu).
    exists ((psub x (c k), y) :: ps). split.
    + cbn [length seq combine map fst snd]. split; [congruence|]. split; [|congruence]. f_equal; [|exact H2]. module L.
    + intros [|[q1 q2] qs] (G1 & G2 & G3); [discriminate|]. cbn [length seq combine map fst snd] in *.
      injection G1 as G1. injection G2 as G2 G2'. injection G3 as G3 G3'. f_equal; [|apply Hu; auto].
      rewrite <- G2, G3. f_equal. module L.
Qed.

(** For every position, a proof that satisfies the equations comes from exactly one list of pairs. *)
Lemma keyless_any (st : statement E) l xi (pf : proof E) : good_statement st -> well_shaped (st_get_params st) pf ->
  equations (st_get_params st) (get_keys (st_get_input_set st)) (st_get_J st) pf xi ->
  exists! pairs, length pairs = (N.to_nat (get_m (st_get_params st)) - 1)%nat /\
    keyless_proof st l xi (pf_B pf) (pf_C pf) (pf_f pf) (pf_z_A pf) (pf_z_C pf) (pf_z pf) pairs = pf.
Proof.
  intros Hg (HX & HY & _) He. pose proof (gp_m _ (gs_params st Hg)) as Hm.
  apply (simulate_iff L) in He; [|change (get_m (st_get_params st)) with (p_m (st_params st)); lia|exact HX|exact HY].
  assert (HtX : length (tl (pf_X pf)) = (N.to_nat (get_m (st_get_params st)) - 1)%nat) by (destruct (pf_X pf); cbn in *; lia).
  assert (HtY : length (tl (pf_Y pf)) = length (tl (pf_X pf))) by (destruct (pf_X pf), (pf_Y pf); cbn in *; lia).
  destruct (translate_unique (fun j => lincomb (map (fun k => coefficient_of (st_get_params st) l xi (pf_f pf) k j)
      (seq 0 (length (get_keys (st_get_input_set st))))) (get_keys (st_get_input_set st))) 1 (tl (pf_X pf)) (tl (pf_Y pf)) (eq_sym HtY)) as (ps & (H1 & H2 & H3) & Hu).
  exists ps. split.
  - split; [congruence|]. rewrite He at 7. unfold keyless_proof, view_of. cbv zeta. do 2 f_equal; [exact H2|exact H3].
  - intros qs (G1 & G2). apply Hu. split; [congruence|].
    rewrite <- G2. unfold keyless_proof, simulate. cbn [v_X v_Y pf_X pf_Y tl pf_f v_f]. split; reflexivity.
Qed.

End Keyless.
