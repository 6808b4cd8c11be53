(** Searching the scalar field: a decidable property holds for few scalars, or for many different ones that can be listed. *)
From Verif Require Import SpecUniform Uniform Algebra RingSum.
Local Open Scope N_scope.

Lemma bounded_search (P : N -> Prop) : (forall x, {P x} + {~ P x}) -> forall k, (exists x, x < k /\ P x) \/ (forall x, x < k -> ~ P x).
Proof.
  intros Hd. apply N.peano_ind; [right; intros x Hx; lia|]. intros k [(x & Hx & HP)|IH]; [left; exists x; split; [lia|exact HP]|].
  destruct (Hd k) as [HP|HP]; [left; exists k; split; [lia|exact HP]|right]. intros x Hx. destruct (N.eq_dec x k) as [->|Hne]; [exact HP|apply IH; lia].
Qed.
Lemma scalar_search (P : scalar -> Prop) : (forall s, {P s} + {~ P s}) -> (exists s, P s) \/ (forall s, ~ P s).
Proof.
  intros Hd. destruct (bounded_search (fun x => P (smk (Z.of_N x))) (fun x => Hd _) order) as [(x & _ & H)|H]; [left; eexists; exact H|right].
  intros s Hs. apply (H (Z.to_N (sval s))).
  - pose proof (sval_range s) as Hr. pose proof order_Z as Ho. generalize dependent order. intros o _ Ho. lia.
  - pose proof (sval_range s) as Hr. rewrite Z2N.id by lia. rewrite smk_sval. exact Hs.
Qed.

(** Either at most [k] scalars have the property, or [k + 1] different ones do. *)
Lemma few_or_many (P : scalar -> Prop) : (forall s, {P s} + {~ P s}) -> forall k,
  (exists all, NoDup all /\ (length all <= k)%nat /\ forall s, P s <-> In s all) \/
  (exists some, NoDup some /\ length some = S k /\ forall s, In s some -> P s).
Proof.
  intros Hd. assert (Hstep : forall k, (exists all, NoDup all /\ (length all < k)%nat /\ forall s, P s <-> In s all) \/
    (exists some, NoDup some /\ length some = k /\ forall s, In s some -> P s)).
  { induction k as [|k IH]; [right; exists []; split; [constructor|split; [reflexivity|intros s []]]|].
    destruct IH as [(all & H1 & H2 & H3)|(some & H1 & H2 & H3)]; [left; exists all; split; [exact H1|split; [lia|exact H3]]|].
    destruct (scalar_search (fun s => P s /\ ~ In s some)) as [(s & Hs & Hn)|Hno].
    - intros s. destruct (Hd s) as [Hs|Hs]; [|right; tauto]. destruct (in_dec scalar_eq_dec s some); [right; tauto|left; tauto].
    - right. exists (s :: some). split; [constructor; assumption|]. split; [cbn [length]; lia|]. intros s' [<-|Hs']; [exact Hs|exact (H3 s' Hs')].
    - left. exists some. split; [exact H1|]. split; [lia|]. intros s. split; [|apply H3]. intros Hs.
      destruct (in_dec scalar_eq_dec s some) as [Hi|Hi]; [exact Hi|]. destruct (Hno s (conj Hs Hi)). }
  intros k. destruct (Hstep (S k)) as [(all & H1 & H2 & H3)|H]; [left; exists all; split; [exact H1|split; [lia|exact H3]]|right; exact H].
Qed.

(** The monic polynomial with given roots: coefficients of what is taken off the leading power. *)
Lemma monic_with_roots (xs : list scalar) : exists cs, length cs = length xs /\
  forall x, In x xs -> spow x (length xs) = peval cs x.
Proof.
  assert (H : exists cs, length cs = length xs /\ forall x, (spow x (length xs) - peval cs x)%sc = fold_right smul s1 (map (fun y => x - y)%sc xs)).
  { induction xs as [|y xs (cs & Hl & IH)]; [exists []; split; [reflexivity|intros x; cbn; ring]|].
    exists (map (fun xy => fst xy + snd xy)%sc (combine (s0 :: cs) (map (fun c => y * c)%sc (map (fun c => (s0 - s1) * c)%sc cs ++ [s1])))).
    assert (Hlen : length (s0 :: cs) = length (map (fun c => y * c)%sc (map (fun c => (s0 - s1) * c)%sc cs ++ [s1]))).
    { rewrite map_length, app_length, map_length. cbn [length]. lia. }
    split; [rewrite map_length, combine_length, <- Hlen; cbn [length]; lia|].
    intros x. rewrite peval_zip_add by exact Hlen. rewrite peval_scale, peval_app, peval_scale, map_length, Hl. cbn [map fold_right peval length spow].
    rewrite <- (IH x). ring. }
  destruct H as (cs & Hl & H). exists cs. split; [exact Hl|]. intros x Hx.
  assert (Hz : fold_right smul s1 (map (fun y => x - y)%sc xs) = s0).
  { clear H Hl cs. induction xs as [|y xs IH]; [destruct Hx|]. cbn [map fold_right]. destruct Hx as [->|Hx]; [ring|rewrite (IH Hx); ring]. }
  rewrite <- (H x) in Hz. transitivity (peval cs x + (spow x (length xs) - peval cs x))%sc; [ring|rewrite Hz; ring].
Qed.
