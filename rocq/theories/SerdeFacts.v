(** Facts about the model of serde. *)
From Verif Require Import Serde.
From Coq Require Import Permutation.

Lemma mapM_ok {E A B} (f : A -> outcome E B) l r : mapM f l = Ok r <-> Forall2 (fun x y => f x = Ok y) l r.
Proof.
  revert r. induction l as [|x l IH]; intros r; cbn [mapM].
  - split; [intros H; injection H as <-; constructor|intros H; inversion H; reflexivity].
  - destruct (f x) as [y| | |] eqn:Ex; cbn [obind]; try (split; [discriminate|intros H; inversion H; congruence]).
    destruct (mapM f l) as [ys| | |] eqn:El; cbn [obind]; split; intros H.
    + injection H as <-. constructor; [exact Ex|]. apply IH. reflexivity.
    + inversion H as [|? y' ? r' Hy Hr]. subst. rewrite Ex in Hy. injection Hy as <-. apply IH in Hr. congruence.
    + discriminate.
    + inversion H as [|? y' ? r' Hy Hr]. subst. apply IH in Hr. congruence.
    + discriminate.
    + inversion H as [|? y' ? r' Hy Hr]. subst. apply IH in Hr. congruence.
    + discriminate.
    + inversion H as [|? y' ? r' Hy Hr]. subst. apply IH in Hr. congruence.
Qed.
Lemma mapM_map_ok {E A B} (f : B -> outcome E A) (g : A -> B) l : (forall x, f (g x) = Ok x) -> mapM f (map g l) = Ok l.
Proof. intros H. induction l as [|x l IH]; [reflexivity|]. cbn [map mapM]. rewrite H, IH. reflexivity. Qed.
Lemma mapM_map_inv {E A B} (f : B -> outcome E A) (g : A -> B) vs l : (forall v x, f v = Ok x -> v = g x) -> mapM f vs = Ok l -> vs = map g l.
Proof.
  intros H Hm. apply mapM_ok in Hm. induction Hm as [|v x vs l Hv _ IH]; [reflexivity|]. cbn [map]. f_equal; [exact (H v x Hv)|exact IH].
Qed.

Lemma mapM_ok_length {E A B} (f : A -> outcome E B) l r : mapM f l = Ok r -> length r = length l.
Proof. intros H. apply mapM_ok in H. induction H; cbn [length]; congruence. Qed.

Lemma des_u8_inv v b : des_u8 v = Ok b -> v = VU8 b.
Proof. destruct v; cbn; intros H; try discriminate. injection H as ->. reflexivity. Qed.

(** Arrays of 32 bytes. *)
Lemma des_32_value lo bs : length bs = 32%nat -> des_32 lo (bytes_tree bs) = Ok bs.
Proof.
  intros Hl. unfold des_32, bytes_tree. rewrite firstn_all2 by (rewrite map_length; lia).
  rewrite (mapM_map_ok des_u8 VU8 bs) by reflexivity. cbn [obind]. rewrite map_length, Hl. reflexivity.
Qed.
Lemma des_32_inv v bs : des_32 LeftoversRefused v = Ok bs -> length bs = 32%nat /\ v = bytes_tree bs.
Proof.
  destruct v as [b|vs|fs]; cbn [des_32]; try discriminate. destruct (mapM des_u8 (firstn 32 vs)) as [bs'| | |] eqn:Em; cbn [obind]; try discriminate.
  pose proof (mapM_ok_length _ _ _ Em) as Hl. rewrite firstn_length in Hl. apply (mapM_map_inv des_u8 VU8) in Em; [|exact des_u8_inv].
  destruct (length bs' <? 32)%nat eqn:E1; [discriminate|]. destruct (32 <? length vs)%nat eqn:E2; [discriminate|].
  intros H. injection H as ->. split; [lia|]. rewrite firstn_all2 in Em by lia. unfold bytes_tree. congruence.
Qed.
Lemma des_32_length lo v bs : des_32 lo v = Ok bs -> length bs = 32%nat.
Proof.
  destruct v as [b|vs|fs]; cbn [des_32]; try discriminate. destruct (mapM des_u8 (firstn 32 vs)) as [bs'| | |] eqn:Em; cbn [obind]; try discriminate.
  pose proof (mapM_ok_length _ _ _ Em) as Hl. rewrite firstn_length in Hl.
  destruct (length bs' <? 32)%nat eqn:E1; [discriminate|]. destruct (32 <? length vs)%nat; [destruct lo; [discriminate|]|]; intros H; injection H as <-; lia.
Qed.

Lemma des_scalar_value lo s : des_scalar lo (bytes_tree (scalar_to_bytes s)) = Ok s.
Proof. unfold des_scalar. rewrite des_32_value by apply scalar_to_bytes_length. cbn [obind]. rewrite scalar_from_to_bytes. reflexivity. Qed.
Lemma des_scalar_inv v s : des_scalar LeftoversRefused v = Ok s -> v = bytes_tree (scalar_to_bytes s).
Proof.
  unfold des_scalar. destruct (des_32 LeftoversRefused v) as [bs| | |] eqn:Ed; cbn [obind]; try discriminate.
  destruct (scalar_from_canonical bs) as [s'|] eqn:Es; cbn [ok_or]; [|discriminate]. intros H. injection H as ->.
  destruct (des_32_inv v bs Ed) as [Hl ->]. rewrite (scalar_to_from_bytes _ _ Hl Es). reflexivity.
Qed.
Lemma des_point_value {E : env} (L : env_laws E) lo P : des_point lo (bytes_tree (compress E P)) = Ok P.
Proof. unfold des_point. rewrite des_32_value by apply (compress_length E L). cbn [obind]. rewrite (decompress_compress E L). reflexivity. Qed.
Lemma des_point_inv {E : env} (L : env_laws E) v (P : pt E) : des_point LeftoversRefused v = Ok P -> v = bytes_tree (compress E P).
Proof.
  unfold des_point. destruct (des_32 LeftoversRefused v) as [bs| | |] eqn:Ed; cbn [obind]; try discriminate.
  destruct (decompress E bs) as [s'|] eqn:Es; cbn [ok_or]; [|discriminate]. intros H. injection H as ->.
  destruct (des_32_inv v bs Ed) as [Hl ->]. rewrite (compress_decompress E L _ _ Hl Es). reflexivity.
Qed.
Lemma des_vec_value {A} (f : tree -> outcome serde_error A) (g : A -> tree) l : (forall x, f (g x) = Ok x) -> des_vec f (vec_tree g l) = Ok l.
Proof. intros H. exact (mapM_map_ok f g l H). Qed.
Lemma des_vec_inv {A} (f : tree -> outcome serde_error A) (g : A -> tree) v l : (forall v x, f v = Ok x -> v = g x) -> des_vec f v = Ok l -> v = vec_tree g l.
Proof. intros H Hv. destruct v as [b|vs|fs]; try discriminate Hv. unfold vec_tree. f_equal. exact (mapM_map_inv f g vs l H Hv). Qed.

(** Structures. *)
Definition known (names : list string) (kv : string * tree) : bool := existsb (String.eqb (fst kv)) names.

Lemma existsb_eqb_in k l : existsb (String.eqb k) l = true <-> In k l.
Proof.
  rewrite existsb_exists. split; [intros (x & Hx & He); apply String.eqb_eq in He; subst; exact Hx|].
  intros H. exists k. split; [exact H|apply String.eqb_refl].
Qed.
Lemma existsb_fst_in k (got : list (string * tree)) : existsb (fun kv => String.eqb k (fst kv)) got = true <-> In k (map fst got).
Proof.
  rewrite existsb_exists, in_map_iff. split; intros (x & H1 & H2).
  - exists x. apply String.eqb_eq in H2. split; [symmetry; exact H2|exact H1].
  - exists x. split; [exact H2|]. apply String.eqb_eq. symmetry. exact H1.
Qed.
Lemma scan_map_spec names fields : forall got, NoDup (map fst got) ->
  (NoDup (map fst (rev (filter (known names) fields) ++ got)) -> scan_map names fields got = Ok (rev (filter (known names) fields) ++ got)) /\
  (forall r, scan_map names fields got = Ok r -> r = rev (filter (known names) fields) ++ got /\ NoDup (map fst r)).
Proof.
  induction fields as [|[k v] fields IH]; intros got Hg; cbn [scan_map filter rev app].
  - split; [reflexivity|]. intros r H. injection H as <-. split; [reflexivity|exact Hg].
  - change (existsb (String.eqb k) names) with (known names (k, v)). destruct (known names (k, v)) eqn:Ek.
    + cbn [rev]. rewrite <- app_assoc. cbn [app].
      destruct (existsb (fun kv => String.eqb k (fst kv)) got) eqn:Eg.
      * split; [|discriminate]. intros Hnd. exfalso. apply existsb_fst_in in Eg. rewrite map_app in Hnd. cbn [map fst] in Hnd.
        apply NoDup_remove_2 in Hnd. apply Hnd. apply in_or_app. right. exact Eg.
      * assert (Hg' : NoDup (map fst ((k, v) :: got))).
        { cbn [map fst]. constructor; [|exact Hg]. intros Hin. apply existsb_fst_in in Hin. congruence. }
        exact (IH _ Hg').
    + exact (IH _ Hg).
Qed.
Lemma lookup_in got k v : NoDup (map fst got) -> (lookup got k = Ok v <-> In (k, v) got).
Proof.
  unfold lookup. induction got as [|[k' v'] got IH]; intros Hnd; cbn [find fst In].
  - split; [discriminate|intros []].
  - inversion Hnd as [|? ? Hn Hnd']. subst. destruct (String.eqb_spec k k') as [->|Hne].
    + cbn [snd]. split; [intros H; injection H as <-; left; reflexivity|]. intros [H|H]; [injection H as <-; reflexivity|].
      exfalso. apply Hn. apply in_map_iff. exists (k', v). split; [reflexivity|exact H].
    + rewrite (IH Hnd'). split; [intros H; right; exact H|]. intros [H|H]; [congruence|exact H].
Qed.
Lemma combine_fst {A B} (a : list A) (b : list B) : length a = length b -> map fst (combine a b) = a.
Proof. revert b. induction a as [|x a IH]; intros [|y b] H; try discriminate; [reflexivity|]. cbn. f_equal. apply IH. cbn in H. lia. Qed.
Lemma combine_snd {A B} (a : list A) (b : list B) : length a = length b -> map snd (combine a b) = b.
Proof. revert b. induction a as [|x a IH]; intros [|y b] H; try discriminate; [reflexivity|]. cbn. f_equal. apply IH. cbn in H. lia. Qed.
Lemma NoDup_pairs {A B} (l : list (A * B)) : NoDup (map fst l) -> NoDup l.
Proof. apply NoDup_map_inv. Qed.

Lemma visit_map_spec names fields vs : NoDup names ->
  visit_map names fields = Ok vs <-> length vs = length names /\ Permutation (filter (known names) fields) (combine names vs).
Proof.
  intros Hn. unfold visit_map. destruct (scan_map_spec names fields [] (NoDup_nil _)) as [Hs Hs']. rewrite app_nil_r in Hs.
  split.
  - destruct (scan_map names fields []) as [got| | |] eqn:Es; cbn [obind]; try discriminate. intros Hm.
    destruct (Hs' got eq_refl) as [Hgot Hnd]. rewrite app_nil_r in Hgot.
    pose proof (mapM_ok_length _ _ _ Hm) as Hl. split; [exact Hl|]. apply mapM_ok in Hm.
    transitivity got; [rewrite Hgot; apply Permutation_rev|].
    assert (Hkeys : forall k v, In (k, v) got -> In k names).
    { intros k v Hin. rewrite Hgot in Hin. apply in_rev in Hin. apply filter_In in Hin. apply existsb_eqb_in. exact (proj2 Hin). }
    assert (Hlook : forall k v, In (k, v) (combine names vs) -> lookup got k = Ok v).
    { clear - Hm. induction Hm as [|n v names vs Hv Hm IH]; intros k w Hin; [destruct Hin|].
      cbn [combine In] in Hin. destruct Hin as [He|Hin]; [injection He as <- <-; exact Hv|exact (IH k w Hin)]. }
    apply NoDup_Permutation; [apply NoDup_map_inv with (f := fst); exact Hnd|apply NoDup_map_inv with (f := fst); rewrite combine_fst; [exact Hn|congruence]|].
    intros [k v]. split.
    + intros Hin. pose proof (Hkeys k v Hin) as Hk.
      assert (He : exists w, In (k, w) (combine names vs)).
      { rewrite <- (combine_fst names vs) in Hk by congruence. apply in_map_iff in Hk. destruct Hk as ([k' w] & He & Hw). cbn [fst] in He. subst k'. exists w. exact Hw. }
      destruct He as [w Hw]. pose proof (Hlook k w Hw) as H1. pose proof (proj2 (lookup_in got k v Hnd) Hin) as H2. congruence.
    + intros Hin. apply (lookup_in got k v Hnd). exact (Hlook k v Hin).
  - intros [Hl Hp].
    assert (Hnd : NoDup (map fst (rev (filter (known names) fields)))).
    { apply (Permutation_NoDup (l := names)); [|exact Hn]. rewrite <- (combine_fst names vs) at 1 by congruence. apply Permutation_map.
      transitivity (filter (known names) fields); [symmetry; exact Hp|apply Permutation_rev]. }
    rewrite (Hs Hnd). cbn [obind]. apply mapM_ok.
    assert (Hall : forall k v, In (k, v) (combine names vs) -> lookup (rev (filter (known names) fields)) k = Ok v).
    { intros k v Hin. apply (lookup_in _ _ _ Hnd). apply in_rev. rewrite rev_involutive. apply (Permutation_in _ (Permutation_sym Hp)). exact Hin. }
    clear - Hl Hall. revert vs Hl Hall. generalize (lookup (rev (filter (known names) fields))). intros f.
    induction names as [|n names IH]; intros [|v vs] Hl Hall; try discriminate Hl; constructor.
    + apply Hall. left. reflexivity.
    + apply IH; [cbn in Hl; lia|]. intros k w Hin. apply Hall. right. exact Hin.
Qed.

Lemma filter_all {A} (f : A -> bool) l : (forall x, In x l -> f x = true) -> filter f l = l.
Proof. induction l as [|x l IH]; intros H; [reflexivity|]. cbn. rewrite (H x (or_introl eq_refl)). f_equal. apply IH. intros y Hy. apply H. right. exact Hy. Qed.

(** What is written is read back... *)
Lemma des_struct_value lo s names fields : NoDup names -> map fst fields = names ->
  des_struct lo names (struct_tree s fields) = Ok (map snd fields).
Proof.
  intros Hn Hf. assert (Hl : length names = length fields) by (rewrite <- Hf; apply map_length). destruct s; cbn [struct_tree des_struct].
  - apply (visit_map_spec _ _ _ Hn). split; [rewrite map_length; congruence|].
    rewrite filter_all.
    + rewrite <- Hf. clear. induction fields as [|[k v] fields IH]; [constructor|]. cbn. constructor. exact IH.
    + intros kv Hin. apply existsb_eqb_in. rewrite <- Hf. apply in_map. exact Hin.
  - unfold visit_seq. rewrite map_length, <- Hl, Nat.ltb_irrefl. reflexivity.
Qed.
(** ... and exactly the following is read at all. *)
Lemma des_struct_inv names v vs : NoDup names -> des_struct LeftoversRefused names v = Ok vs <->
  length vs = length names /\
  (v = VSeq vs \/ exists fields, v = VMap fields /\ Permutation (filter (known names) fields) (combine names vs)).
Proof.
  intros Hn. destruct v as [b|ws|fields]; cbn [des_struct].
  - split; [discriminate|]. intros [_ [H|(f & H & _)]]; discriminate.
  - unfold visit_seq. split.
    + destruct (length ws <? length names)%nat eqn:E1; [discriminate|]. destruct (length names <? length ws)%nat eqn:E2; [discriminate|].
      intros H. injection H as ->. split; [lia|left; reflexivity].
    + intros [Hl [H|(f & H & _)]]; [|discriminate]. injection H as ->. rewrite Hl, Nat.ltb_irrefl. reflexivity.
  - rewrite (visit_map_spec names fields vs Hn). split.
    + intros [Hl Hp]. split; [exact Hl|]. right. exists fields. split; [reflexivity|exact Hp].
    + intros [Hl [H|(f & H & Hp)]]; [discriminate|]. injection H as ->. split; assumption.
Qed.
Lemma des_struct_length lo names v vs : des_struct lo names v = Ok vs -> length vs = length names.
Proof.
  destruct v as [b|ws|fields]; cbn [des_struct]; try discriminate.
  - unfold visit_seq. destruct (length ws <? length names)%nat eqn:E1; [discriminate|]. destruct (length names <? length ws)%nat eqn:E2.
    + destruct lo; [discriminate|]. intros H. injection H as <-. rewrite firstn_length. lia.
    + intros H. injection H as <-. lia.
  - unfold visit_map. destruct (scan_map names fields []) as [got| | |]; cbn [obind]; try discriminate. apply mapM_ok_length.
Qed.
