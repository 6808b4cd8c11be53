(** Counting tables of weights. *)
From Verif Require Import Spec SpecUniform Uniform CoreFacts Algebra.
Local Open Scope N_scope.

(** [b] rows of [k] weights, none of them zero. *)
Definition weight_table (k b : nat) (ws : list (list scalar)) : Prop := shape b k ws /\ Forall (fun w => ~ In s0 w) ws.

Lemma card_list {A} (S : A -> Prop) c : has_card S c -> exists l, NoDup l /\ N.of_nat (length l) = c /\ forall x, S x <-> In x l.
Proof.
  intros (f & H1 & H2). exists (map (fun k => f (N.of_nat k)) (seq 0 (N.to_nat c))). split; [|split].
  - assert (Hinj : forall i j, (i < N.to_nat c)%nat -> (j < N.to_nat c)%nat -> f (N.of_nat i) = f (N.of_nat j) -> i = j).
    { intros i j Hi Hj He. destruct (H2 (f (N.of_nat i)) (H1 (N.of_nat i) ltac:(lia))) as (k & _ & Hu).
      pose proof (Hu (N.of_nat i) (conj (ltac:(lia) : N.of_nat i < c) eq_refl)) as E1. pose proof (Hu (N.of_nat j) (conj (ltac:(lia) : N.of_nat j < c) (eq_sym He))) as E2. lia. }
    revert Hinj. generalize (N.to_nat c) as n. intros n Hinj.
    assert (Hgen : forall len a, (a + len <= n)%nat -> NoDup (map (fun k => f (N.of_nat k)) (seq a len))).
    { induction len as [|len IH]; intros a Ha; [constructor|]. cbn [seq map]. constructor; [|apply IH; lia].
      intros Hin. apply in_map_iff in Hin. destruct Hin as (k & He & Hk). apply in_seq in Hk. apply Hinj in He; lia. }
    apply Hgen. lia.
  - rewrite map_length, seq_length. lia.
  - intros x. split.
    + intros Hx. destruct (H2 x Hx) as (k & (Hk & He) & _). apply in_map_iff. exists (N.to_nat k). rewrite N2Nat.id. split; [exact He|apply in_seq; lia].
    + intros Hin. apply in_map_iff in Hin. destruct Hin as (k & <- & Hk). apply in_seq in Hk. apply H1. lia.
Qed.
Lemma list_card {A} (d : A) (S : A -> Prop) l : NoDup l -> (forall x, S x <-> In x l) -> has_card S (N.of_nat (length l)).
Proof.
  intros Hnd Hl. exists (fun k => nth (N.to_nat k) l d). split; [intros k Hk; apply Hl; apply nth_In; lia|].
  intros x Hx. apply Hl in Hx. destruct (In_nth l x d Hx) as (i & Hi & He). exists (N.of_nat i). split; [split; [lia|rewrite Nat2N.id; exact He]|].
  intros k (Hk & Hk'). apply N2Nat.inj. rewrite Nat2N.id. apply (NoDup_nth l d); [exact Hnd|exact Hi|lia|congruence].
Qed.
Lemma card_sub {A} (d : A) (S P : A -> Prop) c : (forall x, {P x} + {~ P x}) -> has_card S c -> exists c', has_card (fun x => S x /\ P x) c'.
Proof.
  intros Hd H. destruct (card_list S c H) as (l & Hnd & _ & Hl).
  exists (N.of_nat (length (filter (fun x => if Hd x then true else false) l))). apply (list_card d); [apply NoDup_filter; exact Hnd|].
  intros x. rewrite filter_In, <- Hl. destruct (Hd x); intuition congruence.
Qed.
Lemma card_inj {A B} (S : A -> Prop) (T : B -> Prop) (f : A -> B) c d : has_card S c -> has_card T d ->
  (forall x, S x -> T (f x)) -> (forall x y, S x -> S y -> f x = f y -> x = y) -> c <= d.
Proof.
  intros HS HT Hf Hi. destruct (card_list S c HS) as (l & Hnd & <- & Hl). destruct (card_list T d HT) as (l' & Hnd' & <- & Hl').
  rewrite <- (map_length f l). cut (length (map f l) <= length l')%nat; [lia|].
  assert (Hm : NoDup (map f l)).
  { assert (Hin : forall x y, In x l -> In y l -> f x = f y -> x = y) by (intros x y Hx Hy; apply Hi; apply Hl; assumption). clear - Hnd Hin.
    induction Hnd as [|x l Hx Hnd IH]; [constructor|]. cbn [map]. constructor.
    - intros Hc. apply in_map_iff in Hc. destruct Hc as (y & He & Hy). apply Hin in He; [subst y; exact (Hx Hy)|right; exact Hy|left; reflexivity].
    - apply IH. intros a b Ha Hb. apply Hin; right; assumption. }
  pose proof (NoDup_incl_length Hm (l' := l')) as Hle. assert (incl (map f l) l').
  { intros y Hy. apply in_map_iff in Hy. destruct Hy as (x & <- & Hx). apply Hl'. apply Hf. apply Hl. exact Hx. }
  exact (Hle H).
Qed.

Lemma card_nonzero : has_card (fun s : scalar => s <> s0) (order - 1).
Proof.
  assert (Hsmall : forall k, k < order -> sval (smk (Z.of_N k)) = Z.of_N k).
  { intros k Hk. rewrite sval_smk. apply Z.mod_small. rewrite <- order_Z. generalize dependent order. intros o Hk. lia. }
  exists (fun k => smk (Z.of_N (k + 1))). split.
  - intros k Hk Hc. apply (f_equal sval) in Hc. rewrite Hsmall in Hc by (generalize dependent order; intros; lia). change (sval s0) with 0%Z in Hc. lia.
  - intros s Hs. pose proof (sval_range s) as Hr. rewrite <- order_Z in Hr.
    assert (Hz : sval s <> 0%Z) by (intros Hc; apply Hs; apply scalar_ext; rewrite Hc; reflexivity).
    exists (Z.to_N (sval s) - 1). split.
    + split; [generalize dependent order; intros; lia|]. replace (Z.of_N (Z.to_N (sval s) - 1 + 1)) with (sval s) by lia. apply smk_sval.
    + intros k (Hk & <-). rewrite Hsmall by (generalize dependent order; intros; lia). lia.
Qed.

Lemma card_lists {A} (S : A -> Prop) c k : has_card S c -> has_card (fun l => length l = k /\ Forall S l) (c ^ N.of_nat k).
Proof.
  intros H. induction k as [|k IH].
  - exists (fun _ => []). split; [intros i _; split; [reflexivity|constructor]|]. intros [|x l] (Hl & _); [|discriminate]. exists 0. split; [split; [reflexivity|reflexivity]|].
    change (c ^ N.of_nat 0) with 1. intros i (Hi & _). lia.
  - rewrite Nat2N.inj_succ, N.pow_succ_r by lia.
    pose proof (card_prod _ _ _ _ H IH) as Hp. destruct Hp as (f & F1 & F2).
    exists (fun i => fst (f i) :: snd (f i)). split.
    + intros i Hi. destruct (F1 i Hi) as (Ha & Hb & Hc). split; [cbn [length]; lia|constructor; assumption].
    + intros [|x l] (Hl & Hf); [discriminate|]. inversion Hf as [|y l' Hx Hl']. subst. destruct (F2 (x, l) (conj Hx (conj (eq_add_S _ _ Hl) Hl'))) as (i & (Hi & He) & Hu).
      exists i. split; [split; [exact Hi|rewrite He; reflexivity]|]. intros j (Hj & Hje). apply Hu. split; [exact Hj|]. injection Hje as Ea Eb.
      destruct (f j) as [u v]. cbn [fst snd] in Ea, Eb. congruence.
Qed.
Lemma card_tables k b : has_card (weight_table k b) ((order - 1) ^ N.of_nat (k * b)).
Proof.
  rewrite Nat2N.inj_mul, N.pow_mul_r. apply (card_iff (fun ws => length ws = b /\ Forall (fun w => length w = k /\ Forall (fun s => s <> s0) w) ws)).
  - intros ws. assert (Hrow : forall w, Forall (fun s : scalar => s <> s0) w <-> ~ In s0 w).
    { intros w. rewrite Forall_forall. split; [intros H Hc; exact (H _ Hc eq_refl)|intros H x Hx ->; exact (H Hx)]. }
    unfold weight_table, shape. rewrite !Forall_forall. split.
    + intros (Hl & H). split; [split; [exact Hl|]|]; intros w Hw; destruct (H w Hw) as [Ha Hb]; [exact Ha|apply Hrow; exact Hb].
    + intros ((Hl & H) & H'). split; [exact Hl|]. intros w Hw. split; [exact (H w Hw)|apply Hrow; exact (H' w Hw)].
  - apply card_lists. apply card_lists. exact card_nonzero.
Qed.

(** Entry [(i, j)] of a table replaced. *)
Definition put (k b i j : nat) (ws : list (list scalar)) (w : scalar) : list (list scalar) :=
  mkmat b k (fun i' j' => if (Nat.eqb i' i && Nat.eqb j' j)%bool then w else mat ws i' j').
Lemma table_entries k b ws : weight_table k b ws <-> ws = mkmat b k (mat ws) /\ forall i j, (i < b)%nat -> (j < k)%nat -> mat ws i j <> s0.
Proof.
  split.
  - intros (Hs & Hz). split; [symmetry; apply mkmat_mat; exact Hs|]. intros i j Hi Hj Hc. destruct Hs as (Hl & Hr).
    rewrite Forall_forall in Hr, Hz. assert (Hin : In (nth i ws []) ws) by (apply nth_In; lia).
    apply (Hz _ Hin). rewrite <- Hc. unfold mat. apply nth_In. rewrite (Hr _ Hin). exact Hj.
  - intros (He & Hz). split; [rewrite He; apply mkmat_shape|]. apply Forall_forall. intros w Hw Hc. rewrite He in Hw. unfold mkmat in Hw.
    apply in_map_iff in Hw. destruct Hw as (i & <- & Hi). apply in_map_iff in Hc. destruct Hc as (j & Hz' & Hj). apply in_seq in Hi, Hj.
    exact (Hz i j ltac:(lia) ltac:(lia) Hz').
Qed.
Lemma put_table k b i j ws w : weight_table k b ws -> w <> s0 -> weight_table k b (put k b i j ws w).
Proof.
  intros H Hw. apply table_entries in H. destruct H as (_ & Hz). apply table_entries. unfold put. split; [symmetry; apply mkmat_mat; apply mkmat_shape|].
  intros i' j' Hi Hj. rewrite mat_mkmat by assumption. destruct (_ && _)%bool; [exact Hw|apply Hz; assumption].
Qed.
Lemma put_self k b i j ws : shape b k ws -> put k b i j ws (mat ws i j) = ws.
Proof.
  intros Hs. rewrite <- (mkmat_mat b k ws Hs) at 3. apply mkmat_ext. intros i' j' _ _. destruct (Nat.eqb_spec i' i), (Nat.eqb_spec j' j); subst; reflexivity.
Qed.
Lemma put_put k b i j ws w w' : (i < b)%nat -> (j < k)%nat -> put k b i j (put k b i j ws w) w' = put k b i j ws w'.
Proof.
  intros Hi Hj. apply mkmat_ext. intros i' j' Hi' Hj'. unfold put. rewrite mat_mkmat by assumption. destruct (_ && _)%bool; reflexivity.
Qed.
Lemma mat_put k b i j ws w : (i < b)%nat -> (j < k)%nat -> mat (put k b i j ws w) i j = w.
Proof. intros Hi Hj. unfold put. rewrite mat_mkmat by assumption. rewrite !Nat.eqb_refl. reflexivity. Qed.

(** If a condition determines one entry from the others, at most one table in [order - 1] meets it. *)
Lemma few_tables k b i j (P : list (list scalar) -> Prop) : (forall ws, {P ws} + {~ P ws}) -> (i < b)%nat -> (j < k)%nat ->
  (forall ws w w', P (put k b i j ws w) -> P (put k b i j ws w') -> w = w') ->
  exists c, has_card (fun ws => weight_table k b ws /\ P ws) c /\ c * (order - 1) <= (order - 1) ^ N.of_nat (k * b).
Proof.
  intros Hd Hi Hj Hu. destruct (card_sub [] (weight_table k b) P _ Hd (card_tables k b)) as (c & Hc). exists c. split; [exact Hc|].
  apply (card_inj _ _ (fun x => put k b i j (fst x) (snd x)) _ _ (card_prod _ _ _ _ Hc card_nonzero) (card_tables k b)).
  - intros [ws w] ((Ht & _) & Hw). exact (put_table k b i j ws w Ht Hw).
  - intros [ws w] [ws' w'] (((Hs & _) & HP) & _) (((Hs' & _) & HP') & _) He. cbn [fst snd] in *.
    assert (Ew : w = w') by (rewrite <- (mat_put k b i j ws w Hi Hj), He; apply mat_put; assumption). subst w'.
    rewrite <- (put_self k b i j ws Hs) in HP. rewrite <- (put_self k b i j ws' Hs') in HP'.
    assert (Eput : forall v, put k b i j ws v = put k b i j ws' v).
    { intros v. rewrite <- (put_put k b i j ws w v Hi Hj), <- (put_put k b i j ws' w v Hi Hj), He. reflexivity. }
    rewrite <- Eput in HP'. pose proof (Hu ws _ _ HP HP') as Em. f_equal.
    rewrite <- (put_self k b i j ws Hs), <- (put_self k b i j ws' Hs'), Eput, Em. reflexivity.
Qed.
