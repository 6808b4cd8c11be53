(** Searching for a proof that is accepted although it is wrong, shared by both protocols.  The verifier computes a 64-bit number from the
    proof and [k] weights from the number.  A player asks for numbers of things and for weights of numbers, and gets random answers.
    Counting the answers on which it finds a thing whose errors are cancelled by the weights of its number. *)
From Verif Require Export SpecUniform.
From Verif Require Import Uniform CountWeights Oracle Fresh Algebra.
Local Open Scope N_scope.

(** * Specification *)

(** A player: what it does next may depend on all answers so far, and nothing is assumed about how it computes. *)
Inductive search (X : Type) : Type :=
| Finished
| NumberOf (x : X) (next : N -> search X)
| WeightsOf (number : N) (next : list scalar -> search X).
Arguments Finished {X}.
Arguments NumberOf {X} x next.
Arguments WeightsOf {X} number next.
(** What it knows: numbers of things and weights of numbers. *)
Inductive known (X : Type) : Type := HasNumber (x : X) (number : N) | HasWeights (number : N) (ws : list scalar).
Arguments HasNumber {X} x number.
Arguments HasWeights {X} number ws.
(** An answer holds a number and a row of weights; a question takes the part that it needs. *)
Fixpoint learns {X} (g : search X) (answers : list (N * list scalar)) : list (known X) :=
  match g, answers with
  | NumberOf x next, a :: rest => HasNumber x (fst a) :: learns (next (fst a)) rest
  | WeightsOf number next, a :: rest => HasWeights number (snd a) :: learns (next (snd a)) rest
  | _, _ => []
  end.
(** [cancels x ws]: the weights [ws] cancel the errors of [x].  The player has found a thing that is accepted. *)
Definition finds {X} (cancels : X -> list scalar -> Prop) (what : list (known X)) : Prop :=
  exists x number ws, In (HasNumber x number) what /\ In (HasWeights number ws) what /\ cancels x ws.
(** [k] weights, none of them zero. *)
Definition weight_row (k : nat) (ws : list scalar) : Prop := length ws = k /\ ~ In s0 ws.
(** [n] answers of a 64-bit number and [k] weights. *)
Definition random_answers (k n : nat) (answers : list (N * list scalar)) : Prop :=
  length answers = n /\ Forall (fun a => fst a < 2 ^ 64 /\ weight_row k (snd a)) answers.

(** * Counting *)
Lemma card_row k : has_card (weight_row k) ((order - 1) ^ N.of_nat k).
Proof.
  apply (card_iff (fun ws => length ws = k /\ Forall (fun s => s <> s0) ws)); [|apply card_lists; exact card_nonzero].
  intros ws. unfold weight_row. rewrite Forall_forall. split; (intros [Hl H]; split; [exact Hl|]); [intros Hc; exact (H _ Hc eq_refl)|intros x Hx ->; exact (H Hx)].
Qed.
Lemma card_below n : has_card (fun x => x < n) n.
Proof. exists (fun x => x). split; [trivial|]. intros x Hx. exists x. split; [split; [exact Hx|reflexivity]|]. intros y [_ <-]. reflexivity. Qed.
Lemma card_one_answer k : has_card (fun a : N * list scalar => fst a < 2 ^ 64 /\ weight_row k (snd a)) (2 ^ 64 * (order - 1) ^ N.of_nat k).
Proof. exact (card_prod _ _ _ _ (card_below (2 ^ 64)) (card_row k)). Qed.
Lemma card_random_answers k n : has_card (random_answers k n) ((2 ^ 64 * (order - 1) ^ N.of_nat k) ^ N.of_nat n).
Proof. apply (card_lists _ _ n (card_one_answer k)). Qed.

Lemma row_eq_dec (x y : list scalar) : {x = y} + {x <> y}.
Proof. apply list_eq_dec. exact scalar_eq_dec. Qed.
Lemma answer_eq_dec (x y : N * list scalar) : {x = y} + {x <> y}.
Proof.
  destruct x as [a b], y as [c d]. destruct (N.eq_dec a c) as [->|Ha]; [|right; intros H; injection H as H _; exact (Ha H)].
  destruct (row_eq_dec b d) as [->|Hb]; [left; reflexivity|right; intros H; injection H as H; exact (Hb H)].
Qed.
Lemma at_most_in {A} (eqd : forall x y : A, {x = y} + {x <> y}) (l : list A) : at_most (fun x => In x l) (N.of_nat (length l)).
Proof. intros l' Hl Hf. cut (length l' <= length l)%nat; [lia|]. apply NoDup_incl_length; [exact Hl|]. intros x Hx. rewrite Forall_forall in Hf. exact (Hf x Hx). Qed.
Lemma at_most_union {A B} (P : B -> A -> Prop) c (l : list B) : (forall b, at_most (P b) c) -> at_most (fun x => exists b, In b l /\ P b x) (N.of_nat (length l) * c).
Proof.
  intros H. induction l as [|b l IH]; [intros l' _ Hf; destruct l' as [|x l']; [cbn [length]; lia|]; inversion Hf as [|? ? (b & [] & _) _]|].
  replace (N.of_nat (length (b :: l)) * c) with (c + N.of_nat (length l) * c) by (cbn [length]; lia).
  apply (at_most_or _ (P b) (fun x => exists b, In b l /\ P b x)); [|apply H|exact IH]. intros x (b' & [<-|Hb] & HP); [left; exact HP|right; exists b'; auto].
Qed.


(** * Combinations of rows *)
Fixpoint coord (a : list scalar) (rs : list (list scalar)) (j : nat) : scalar :=
  match a, rs with x :: a', r :: rs' => (x * nth j r s0 + coord a' rs' j)%sc | _, _ => s0 end.
Definition comb (k : nat) (a : list scalar) (rs : list (list scalar)) : list scalar := map (coord a rs) (seq 0 k).
(** [w] is a combination of [k - 1] of the rows, or of fewer. *)
Definition in_span (k : nat) (w : list scalar) (rs : list (list scalar)) : Prop :=
  exists picks a, length picks = (k - 1)%nat /\ Forall (fun r => In r (repeat s0 k :: rs)) picks /\ length a = (k - 1)%nat /\ w = comb k a picks.
(** No row is a combination of [k - 1] rows after it in the list. *)
Fixpoint independent (k : nat) (rs : list (list scalar)) : Prop :=
  match rs with [] => True | r :: rs' => ~ in_span k r rs' /\ independent k rs' end.

(** Finite sets, listed. *)
Definition listed {A} (P : A -> Prop) (n : N) : Prop := exists l, N.of_nat (length l) <= n /\ forall x, P x <-> In x l.
Lemma listed_at_most {A} (P : A -> Prop) n : listed P n -> at_most P n.
Proof.
  intros (l & Hl & Hin) l' Hnd Hf. cut (length l' <= length l)%nat; [lia|]. apply NoDup_incl_length; [exact Hnd|]. intros x Hx. apply Hin. rewrite Forall_forall in Hf. exact (Hf x Hx).
Qed.
Lemma listed_card {A} (P : A -> Prop) n : has_card P n -> listed P n.
Proof. intros H. destruct (card_list P n H) as (l & _ & Hl & Hin). exists l. split; [lia|exact Hin]. Qed.
Lemma listed_prod {A B} (P : A -> Prop) (Q : B -> Prop) a b : listed P a -> listed Q b -> listed (fun x => P (fst x) /\ Q (snd x)) (a * b).
Proof.
  intros (l & Hl & Hin) (l' & Hl' & Hin'). exists (list_prod l l'). split; [rewrite prod_length, Nat2N.inj_mul; apply N.mul_le_mono; assumption|].
  intros [x y]. rewrite in_prod_iff, <- Hin, <- Hin'. reflexivity.
Qed.
Lemma listed_image {A B} (P : A -> Prop) (f : A -> B) n : listed P n -> listed (fun y => exists x, P x /\ y = f x) n.
Proof.
  intros (l & Hl & Hin). exists (map f l). split; [rewrite map_length; exact Hl|]. intros y. rewrite in_map_iff.
  split; intros (x & H1 & H2); exists x; [split; [symmetry; exact H2|apply Hin; exact H1]|split; [apply Hin; exact H2|symmetry; exact H1]].
Qed.
Lemma listed_iff {A} (P Q : A -> Prop) n : (forall x, P x <-> Q x) -> listed P n -> listed Q n.
Proof. intros H (l & Hl & Hin). exists l. split; [exact Hl|]. intros x. rewrite <- H. apply Hin. Qed.
Lemma listed_lists {A} (P : A -> Prop) n k : listed P n -> listed (fun l => length l = k /\ Forall P l) (n ^ N.of_nat k).
Proof.
  intros H. induction k as [|k IH].
  - exists [[]]. split; [reflexivity|]. intros [|x l]; cbn [In]; split; intros; try tauto; [split; [reflexivity|constructor]|destruct H0; discriminate|destruct H0 as [H0|[]]; discriminate].
  - rewrite Nat2N.inj_succ, N.pow_succ_r by lia. eapply listed_iff; [|exact (listed_image _ (fun x : A * list A => fst x :: snd x) _ (listed_prod _ _ _ _ H IH))].
    intros l. cbv beta. split.
    + intros ([x r] & (H1 & H2 & H3) & ->). cbn [fst snd length] in *. split; [lia|constructor; assumption].
    + intros (Hl & Hf). destruct l as [|x r]; [discriminate|]. inversion Hf; subst. exists (x, r). cbn [fst snd length] in *. split; [split; [assumption|split; [lia|assumption]]|reflexivity].
Qed.
Lemma listed_dec {A} (eqd : forall x y : A, {x = y} + {x <> y}) (P : A -> Prop) n x : listed P n -> P x \/ ~ P x.
Proof. intros (l & _ & Hin). destruct (in_dec eqd x l) as [H|H]; [left|right; intros Hc]; [apply Hin; exact H|apply H; apply Hin; exact Hc]. Qed.
Lemma listed_span k rs : listed (fun w => in_span k w rs) (N.of_nat (S (length rs)) ^ N.of_nat (k - 1) * order ^ N.of_nat (k - 1)).
Proof.
  assert (Hp : listed (fun r => In r (repeat s0 k :: rs)) (N.of_nat (S (length rs)))) by (exists (repeat s0 k :: rs); split; [cbn [length]; lia|reflexivity]).
  assert (Hs : listed (fun _ : scalar => True) order) by (apply listed_card; exact card_scalars).
  eapply listed_iff; [|exact (listed_image _ (fun x => comb k (snd x) (fst x)) _ (listed_prod _ _ _ _ (listed_lists _ _ (k - 1) Hp) (listed_lists _ _ (k - 1) Hs)))].
  intros w. cbv beta. split.
  - intros ([picks a] & ((H1 & H2) & H3 & _) & ->). exists picks, a. auto.
  - intros (picks & a & H1 & H2 & H3 & ->). exists (picks, a). split; [|reflexivity]. split; [split; assumption|]. split; [exact H3|]. apply Forall_forall. trivial.
Qed.

Lemma coord_zeros j : forall n rs, coord (repeat s0 n) rs j = s0.
Proof. induction n as [|n IH]; intros [|r rs]; try reflexivity. cbn [repeat coord]. rewrite IH. ring. Qed.
Lemma coord_app j : forall a rs a' rs', length a = length rs -> coord (a ++ a') (rs ++ rs') j = (coord a rs j + coord a' rs' j)%sc.
Proof.
  induction a as [|x a IH]; intros [|r rs] a' rs' H; try discriminate; [cbn [app coord]; ring|]. cbn [app coord]. rewrite IH by (cbn [length] in H; lia). ring.
Qed.
Lemma coord_scale j c : forall a rs, coord (map (fun x => c * x)%sc a) rs j = (c * coord a rs j)%sc.
Proof. induction a as [|x a IH]; intros [|r rs]; cbn [map coord]; try ring. rewrite IH. ring. Qed.
Lemma coord_vsub j : forall a b rs, length a = length b -> coord (vsub a b) rs j = (coord a rs j - coord b rs j)%sc.
Proof.
  unfold vsub. induction a as [|x a IH]; intros [|y b] rs H; try discriminate; [destruct rs; cbn; ring|]. destruct rs as [|r rs]; [cbn; ring|].
  cbn [combine map coord fst snd]. rewrite IH by (cbn [length] in H; lia). ring.
Qed.
Lemma comb_nth k a rs j : (j < k)%nat -> nth j (comb k a rs) s0 = coord a rs j.
Proof. intros H. unfold comb. rewrite (nth_indep _ s0 (coord a rs 0)) by (rewrite map_length, seq_length; exact H). rewrite map_nth, seq_nth by exact H. reflexivity. Qed.
Lemma row_ext k (v w : list scalar) : length v = k -> length w = k -> (forall j, (j < k)%nat -> nth j v s0 = nth j w s0) -> v = w.
Proof. intros Hv Hw H. apply (nth_ext _ _ s0 s0); [congruence|]. intros j Hj. apply H. lia. Qed.
Lemma comb_length k a rs : length (comb k a rs) = k.
Proof. unfold comb. rewrite map_length. apply seq_length. Qed.

(** Independent rows have no relation. *)
Lemma independent_relation k : forall rs a, (length rs <= k)%nat -> Forall (weight_row k) rs -> independent k rs -> length a = length rs ->
  (forall j, (j < k)%nat -> coord a rs j = s0) -> Forall (fun x => x = s0) a.
Proof.
  induction rs as [|r rs IH]; intros a Hl Hr Hi Ha Hz; [destruct a; [constructor|discriminate]|]. destruct a as [|x a]; [discriminate|].
  inversion Hr as [|? ? Hr1 Hr2]; subst. destruct Hi as [Hi1 Hi2]. cbn [length] in *.
  destruct (scalar_eq_dec x s0) as [->|Hx].
  - constructor; [reflexivity|]. apply IH; try assumption; [lia|lia|]. intros j Hj. specialize (Hz j Hj). cbn [coord] in Hz. rewrite <- Hz. ring.
  - exfalso. apply Hi1. exists (rs ++ repeat (repeat s0 k) (k - 1 - length rs)), (map (fun y => (- sinv x) * y)%sc a ++ repeat s0 (k - 1 - length rs)).
    split; [rewrite app_length, repeat_length; lia|]. split.
    { apply Forall_app. split; [apply Forall_forall; intros y Hy; right; exact Hy|]. apply Forall_forall. intros y Hy. left. symmetry. exact (repeat_spec _ _ _ Hy). }
    split; [rewrite app_length, map_length, repeat_length; lia|].
    apply (row_ext k); [exact (proj1 Hr1)|apply comb_length|]. intros j Hj. rewrite comb_nth by exact Hj.
    rewrite coord_app by (rewrite map_length; lia). rewrite coord_zeros, coord_scale. specialize (Hz j Hj). cbn [coord] in Hz.
    assert (Hc : coord a rs j = (- (x * nth j r s0))%sc) by (replace (coord a rs j) with ((x * nth j r s0 + coord a rs j) - x * nth j r s0)%sc by ring; rewrite Hz; ring).
    rewrite Hc. replace (- sinv x * - (x * nth j r s0) + s0)%sc with ((sinv x * x) * nth j r s0)%sc by ring. rewrite (sinv_l x Hx). ring.
Qed.
Lemma vsub_zero : forall a b, length a = length b -> Forall (fun x => x = s0) (vsub a b) -> a = b.
Proof.
  unfold vsub. induction a as [|x a IH]; intros [|y b] Hl H; try discriminate; [reflexivity|]. cbn [combine map fst snd] in H. inversion H as [|? ? H1 H2]; subst.
  f_equal; [|apply IH; [cbn [length] in Hl; lia|exact H2]]. replace x with ((x - y) + y)%sc by ring. rewrite H1. ring.
Qed.
(** [k] independent rows give everything: one-to-one maps of a finite set to itself are onto. *)
Lemma independent_span k rs v : length rs = k -> Forall (weight_row k) rs -> independent k rs -> length v = k ->
  exists a, length a = k /\ v = comb k a rs.
Proof.
  intros Hl Hr Hi Hv. destruct (card_list _ _ (card_lists _ _ k card_scalars)) as (l & Hnd & _ & Hin).
  assert (Hall : forall a : list scalar, In a l <-> length a = k).
  { intros a. rewrite <- Hin. split; [tauto|]. intros H. split; [exact H|]. apply Forall_forall. trivial. }
  assert (Hnd' : NoDup (map (fun a => comb k a rs) l)).
  { assert (Hinj : forall a b, In a l -> In b l -> comb k a rs = comb k b rs -> a = b).
    { intros a b Ha Hb He. apply Hall in Ha, Hb. apply vsub_zero; [congruence|]. apply (independent_relation k rs); [lia|exact Hr|exact Hi| |].
      - unfold vsub. rewrite map_length, combine_length. lia.
      - intros j Hj. rewrite coord_vsub by congruence. apply (f_equal (fun v => nth j v s0)) in He. rewrite !comb_nth in He by exact Hj. rewrite He. ring. }
    clear Hall Hin. induction Hnd as [|a l Ha Hnd IH]; [constructor|]. cbn [map]. constructor.
    - intros Hc. apply in_map_iff in Hc. destruct Hc as (b & He & Hb). apply Hinj in He; [subst b; exact (Ha Hb)|right; exact Hb|left; reflexivity].
    - apply IH. intros b c Hb Hc. apply Hinj; right; assumption. }
  assert (Hincl : incl l (map (fun a => comb k a rs) l)).
  { apply NoDup_length_incl; [exact Hnd'|rewrite map_length; lia|]. intros y Hy. apply in_map_iff in Hy. destruct Hy as (a & <- & _). apply Hall. apply comb_length. }
  specialize (Hincl v (proj2 (Hall v) Hv)). apply in_map_iff in Hincl. destruct Hincl as (a & <- & Ha). exists a. split; [apply Hall; exact Ha|reflexivity].
Qed.
(** So points that are cancelled by [k] independent rows are all zero. *)
Lemma lincomb_comb {E : env} (L : env_laws E) k (ds : list (pt E)) : forall a rs, length a = length rs -> Forall (fun r => length r = k) rs ->
  Forall (fun r => lincomb r ds = pid E) rs -> lincomb (comb k a rs) ds = pid E.
Proof.
  unfold comb. induction a as [|x a IH]; intros [|r rs] Hl Hlen Hz; try discriminate.
  - replace (map (coord [] []) (seq 0 k)) with (repeat s0 k); [apply (lincomb_zeros L)|].
    rewrite <- (seq_length k 0) at 1. generalize (seq 0 k). intros l. induction l as [|y l IHl]; [reflexivity|]. cbn [length repeat map]. rewrite IHl. reflexivity.
  - cbn [coord]. rewrite (lincomb_add L), (lincomb_scale_r L). inversion Hlen as [|? ? Hr1 Hr2]; subst. inversion Hz as [|? ? Hz1 Hz2]; subst.
    assert (Hn : map (fun j => nth j r s0) (seq 0 (length r)) = r).
    { apply (row_ext (length r)); [rewrite map_length, seq_length; reflexivity|reflexivity|]. intros j Hj.
      rewrite (nth_indep _ s0 (nth 0 r s0)) by (rewrite map_length, seq_length; exact Hj). rewrite (map_nth (fun j => nth j r s0)), seq_nth by exact Hj. reflexivity. }
    rewrite Hn, Hz1. change (padd E (pmul E x (pid E)) (lincomb (map (coord a rs) (seq 0 (length r))) ds) = pid E).
    rewrite (IH rs); [rewrite (pmul_0_r L); apply (padd_0_l E L)|cbn [length] in Hl; lia|exact Hr2|exact Hz2].
Qed.
Lemma independent_cancel {E : env} (L : env_laws E) k (ds : list (pt E)) rs : length ds = k -> length rs = k -> Forall (weight_row k) rs -> independent k rs ->
  Forall (fun r => lincomb r ds = pid E) rs -> Forall (fun d => d = pid E) ds.
Proof.
  intros Hds Hl Hr Hi Hz. apply Forall_forall. intros d Hd. destruct (In_nth ds d (pid E) Hd) as (j & Hj & <-).
  rewrite <- (lincomb_delta L ds j Hj). rewrite Hds.
  destruct (independent_span k rs (map (fun i => if Nat.eqb i j then s1 else s0) (seq 0 k)) Hl Hr Hi) as (a & Ha & Hv); [rewrite map_length, seq_length; reflexivity|].
  rewrite Hv. apply (lincomb_comb L); [congruence| |exact Hz]. eapply Forall_impl; [|exact Hr]. intros r [H _]. exact H.
Qed.

Lemma in_span_incl k w rs rs' : (forall r, In r rs -> In r rs') -> in_span k w rs -> in_span k w rs'.
Proof.
  intros H (picks & a & H1 & H2 & H3). exists picks, a. split; [exact H1|]. split; [|exact H3]. eapply Forall_impl; [|exact H2].
  intros r [Hr|Hr]; [left; exact Hr|right; exact (H r Hr)].
Qed.
Lemma independent_firstn k n : forall rs, independent k rs -> independent k (firstn n rs).
Proof.
  induction n as [|n IH]; intros [|r rs] H; try exact I. destruct H as [H1 H2]. cbn [firstn]. split; [|exact (IH rs H2)]. intros Hc. apply H1.
  revert Hc. apply in_span_incl. intros x Hx. rewrite <- (firstn_skipn n rs). apply in_or_app. left. exact Hx.
Qed.
Lemma Forall_firstn_ {A} (P : A -> Prop) n l : Forall P l -> Forall P (firstn n l).
Proof. intros H. rewrite <- (firstn_skipn n l) in H. apply Forall_app in H. tauto. Qed.

Section Search.
Context {X : Type} (k : nat) (cancels : X -> list scalar -> Prop).

Definition clash (h : list (known X)) (e : known X) : Prop :=
  match e with
  | HasNumber x number => exists ws, In (HasWeights number ws) h /\ cancels x ws
  | HasWeights number ws => exists x, In (HasNumber x number) h /\ cancels x ws
  end.
Fixpoint rows (h : list (known X)) : list (list scalar) :=
  match h with [] => [] | HasNumber _ _ :: h' => rows h' | HasWeights _ ws :: h' => ws :: rows h' end.
Definition bad (h : list (known X)) (e : known X) : Prop :=
  clash h e \/ match e with HasNumber _ _ => False | HasWeights _ ws => in_span k ws (rows h) end.
Definition sound_history (h : list (known X)) : Prop := Forall (weight_row k) (rows h) /\ independent k (rows h).

Fixpoint hits (h : list (known X)) (g : search X) (answers : list (N * list scalar)) : Prop :=
  match g, answers with
  | NumberOf x next, a :: rest => bad h (HasNumber x (fst a)) \/ (~ bad h (HasNumber x (fst a)) /\ hits (HasNumber x (fst a) :: h) (next (fst a)) rest)
  | WeightsOf number next, a :: rest => bad h (HasWeights number (snd a)) \/ (~ bad h (HasWeights number (snd a)) /\ hits (HasWeights number (snd a) :: h) (next (snd a)) rest)
  | _, _ => False
  end.
Lemma finds_cons e h : finds cancels (e :: h) -> clash h e \/ finds cancels h.
Proof.
  intros (x & number & ws & [H1|H1] & [H2|H2] & H3).
  - congruence.
  - left. rewrite H1. exists ws. auto.
  - left. rewrite H2. exists x. auto.
  - right. exists x, number, ws. auto.
Qed.
Lemma finds_perm h h' : (forall e, In e h -> In e h') -> finds cancels h -> finds cancels h'.
Proof. intros H (x & number & ws & H1 & H2 & H3). exists x, number, ws. auto. Qed.

Context (cancels_dec : forall x ws, cancels x ws \/ ~ cancels x ws).
Lemma ex_in_dec {A} (P : A -> Prop) (l : list A) : (forall x, P x \/ ~ P x) -> (exists x, In x l /\ P x) \/ ~ (exists x, In x l /\ P x).
Proof.
  intros Hd. induction l as [|x l IH]; [right; intros (x & [] & _)|]. destruct (Hd x) as [H|H]; [left; exists x; split; [left; reflexivity|exact H]|].
  destruct IH as [(y & Hy & HP)|IH]; [left; exists y; split; [right; exact Hy|exact HP]|]. right. intros (y & [<-|Hy] & HP); [exact (H HP)|apply IH; exists y; auto].
Qed.
Lemma finds_dec h : finds cancels h \/ ~ finds cancels h.
Proof.
  destruct (ex_in_dec (fun e => exists e', In e' h /\ match e, e' with HasNumber x n, HasWeights n' ws => n = n' /\ cancels x ws | _, _ => False end) h) as [H|H].
  - intros e. apply ex_in_dec. intros e'. destruct e as [x n|n ws]; [|tauto]. destruct e' as [x' n'|n' ws']; [tauto|]. destruct (N.eq_dec n n'), (cancels_dec x ws'); tauto.
  - left. destruct H as (e & He & e' & He' & H). destruct e as [x n|n ws]; [|destruct H]. destruct e' as [x' n'|n' ws']; [destruct H|]. destruct H as [<- H].
    exists x, n, ws'. auto.
  - right. intros (x & n & ws & H1 & H2 & H3). apply H. exists (HasNumber x n). split; [exact H1|]. exists (HasWeights n ws). auto.
Qed.
Lemma bad_dec h e : bad h e \/ ~ bad h e.
Proof.
  assert (Hc : clash h e \/ ~ clash h e).
  { destruct e as [x n|n ws]; cbn [clash].
    - destruct (ex_in_dec (fun e' => match e' with HasNumber _ _ => False | HasWeights n' ws => n = n' /\ cancels x ws end) h) as [H|H].
      + intros [x' n'|n' ws]; [tauto|]. destruct (N.eq_dec n n'), (cancels_dec x ws); tauto.
      + left. destruct H as ([x' n'|n' ws] & Hin & H); [destruct H|]. destruct H as [<- H]. exists ws. auto.
      + right. intros (ws & Hin & H'). apply H. exists (HasWeights n ws). auto.
    - destruct (ex_in_dec (fun e' => match e' with HasNumber x n' => n = n' /\ cancels x ws | HasWeights _ _ => False end) h) as [H|H].
      + intros [x' n'|n' ws']; [|tauto]. destruct (N.eq_dec n n'), (cancels_dec x' ws); tauto.
      + left. destruct H as ([x' n'|n' ws'] & Hin & H); [|destruct H]. destruct H as [<- H]. exists x'. auto.
      + right. intros (x & Hin & H'). apply H. exists (HasNumber x n). auto. }
  unfold bad. destruct Hc as [Hc|Hc]; [tauto|]. destruct e as [x n|n ws]; [tauto|].
  destruct (listed_dec row_eq_dec _ _ ws (listed_span k (rows h))); tauto.
Qed.
Lemma finds_hits g : forall h answers, finds cancels (learns g answers ++ h) -> finds cancels h \/ hits h g answers.
Proof.
  assert (Step : forall e h rest g', (finds cancels (learns g' rest ++ e :: h) -> finds cancels (e :: h) \/ hits (e :: h) g' rest) ->
    finds cancels (e :: learns g' rest ++ h) -> finds cancels h \/ (bad h e \/ ~ bad h e /\ hits (e :: h) g' rest)).
  { intros e h rest g' IH H. destruct (bad_dec h e) as [Hb|Hb]; [tauto|].
    apply (finds_perm _ (learns g' rest ++ e :: h)) in H.
    - apply IH in H. destruct H as [H|H]; [|tauto]. apply finds_cons in H. destruct H as [H|H]; [destruct Hb; left; exact H|tauto].
    - intros e' [<-|He]; apply in_or_app; [right; left; reflexivity|]. apply in_app_or in He. destruct He as [He|He]; [left; exact He|right; right; exact He]. }
  induction g as [|x next IH|number next IH]; intros h [|a rest] H; try (left; exact H); cbn [learns app] in H; cbn [hits].
  - apply (Step (HasNumber x (fst a)) h rest (next (fst a)) (IH (fst a) _ rest) H).
  - apply (Step (HasWeights number (snd a)) h rest (next (snd a)) (IH (snd a) _ rest) H).
Qed.

(** At most one row in [order - 1] cancels a thing, and never [k] independent rows. *)
Context (few : forall x, at_most (fun ws => weight_row k ws /\ cancels x ws) ((order - 1) ^ N.of_nat (k - 1))) (Hk : (2 <= k)%nat).
Context (robust : forall x rs, length rs = k -> Forall (weight_row k) rs -> independent k rs -> ~ Forall (cancels x) rs).
Context (Hbig : 2 ^ 251 * order ^ N.of_nat (k - 1) <= (order - 1) ^ N.of_nat k).
Let B := (order - 1) ^ N.of_nat k.
Let T := 2 ^ 64 * B.

(** Among the rows of a history there are fewer than [k] that cancel a thing. *)
Lemma cancelling_rows x h : sound_history h ->
  exists l : list (N * list scalar), (length l <= k - 1)%nat /\ forall number ws, In (HasWeights number ws) h -> cancels x ws -> In (number, ws) l.
Proof.
  intros Hs.
  assert (H : exists l : list (N * list scalar), (forall number ws, In (HasWeights number ws) h -> cancels x ws -> In (number, ws) l) /\ Forall (cancels x) (map snd l) /\
    (forall r, In r (map snd l) -> In r (rows h)) /\ Forall (weight_row k) (map snd l) /\ independent k (map snd l)).
  { destruct Hs as [H1 H2]. induction h as [|e h IH]; [exists []; split; [intros number ws []|]; split; [constructor|]; split; [intros r []|]; split; [constructor|exact I]|].
    destruct e as [y n|n ws]; cbn [rows] in *.
    - destruct (IH H1 H2) as (l & I1 & I2 & I3 & I4 & I5). exists l. split; [|auto]. intros number ws [Hc|Hin]; [discriminate|exact (I1 _ _ Hin)].
    - inversion H1 as [|? ? W1 W2]; subst. destruct H2 as [D1 D2]. destruct (IH W2 D2) as (l & I1 & I2 & I3 & I4 & I5).
      destruct (cancels_dec x ws) as [Hc|Hc].
      + exists ((n, ws) :: l). cbn [map snd]. split; [|split; [constructor; assumption|split; [|split; [constructor; assumption|]]]].
        * intros number ws' [He|Hin] Hc'; [injection He as <- <-; left; reflexivity|right; exact (I1 _ _ Hin Hc')].
        * intros r [<-|Hr]; [left; reflexivity|right; exact (I3 r Hr)].
        * split; [|exact I5]. intros Hsp. apply D1. revert Hsp. apply in_span_incl. exact I3.
      + exists l. split; [|split; [exact I2|split; [intros r Hr; right; exact (I3 r Hr)|split; assumption]]].
        intros number ws' [He|Hin] Hc'; [injection He as <- <-; destruct (Hc Hc')|exact (I1 _ _ Hin Hc')]. }
  destruct H as (l & I1 & I2 & _ & I4 & I5). exists l. split; [|exact I1].
  destruct (Nat.le_gt_cases (length l) (k - 1)) as [Hle|Hgt]; [exact Hle|]. exfalso.
  apply (robust x (firstn k (map snd l))).
  - rewrite firstn_length, map_length. lia.
  - apply Forall_firstn_. exact I4.
  - apply independent_firstn. exact I5.
  - apply Forall_firstn_. exact I2.
Qed.
Lemma rows_length h : (length (rows h) <= length h)%nat.
Proof. induction h as [|[x n|n ws] h IH]; cbn [rows length]; lia. Qed.

(** The bad answers to one question, after fewer than [n] others. *)
Definition bad_answers (n : nat) : N := N.of_nat (k - 1) * B + 2 ^ 64 * (N.of_nat n * (order - 1) ^ N.of_nat (k - 1) + N.of_nat n ^ N.of_nat (k - 1) * order ^ N.of_nat (k - 1)).
Lemma bad_bound n h (entry : N * list scalar -> known X) : sound_history h -> (length h < n)%nat ->
  (exists x, entry = fun a => HasNumber x (fst a)) \/ (exists number, entry = fun a => HasWeights number (snd a)) ->
  at_most (fun a => (fst a < 2 ^ 64 /\ weight_row k (snd a)) /\ bad h (entry a)) (bad_answers n).
Proof.
  intros Hs Hn [(x & ->)|(number & ->)]; unfold bad_answers.
  - apply (at_most_le _ (N.of_nat (k - 1) * B)); [generalize (N.of_nat (k - 1) * B); intros; lia|].
    apply (at_most_pairs N.eq_dec _ (fun number => exists ws, In (HasWeights number ws) h /\ cancels x ws)).
    + intros number ws (_ & [Hb|[]]). exact Hb.
    + destruct (cancelling_rows x h Hs) as (l & Hl & Hin). apply (at_most_le _ (N.of_nat (length (map fst l)))); [rewrite map_length; lia|].
      apply (at_most_sub _ (fun number => In number (map fst l))); [|apply at_most_in; exact N.eq_dec].
      intros number (ws & H1 & H2). apply in_map_iff. exists (number, ws). split; [reflexivity|exact (Hin _ _ H1 H2)].
    + intros number. apply (at_most_sub _ (weight_row k)); [|apply card_at_most; apply card_row]. intros ws ((_ & H) & _). exact H.
  - eapply at_most_le; [apply N.le_add_l|].
    apply (at_most_pairs N.eq_dec _ (fun n => n < 2 ^ 64)); [intros n' ws ((H & _) & _); exact H|apply card_at_most; apply card_below|].
    intros n'. apply (at_most_or _ (fun ws => exists e, In e h /\ match e with HasNumber x _ => weight_row k ws /\ cancels x ws | HasWeights _ _ => False end)
                                   (fun ws => in_span k ws (rows h))).
    + intros ws ((_ & Hr) & [(x & Hin & Hc)|Hsp]); cbn [snd] in *; [left; exists (HasNumber x number); auto|right; exact Hsp].
    + apply (at_most_le _ (N.of_nat (length h) * (order - 1) ^ N.of_nat (k - 1))); [apply N.mul_le_mono_r; lia|].
      apply (at_most_union (fun e ws => match e with HasNumber x _ => weight_row k ws /\ cancels x ws | HasWeights _ _ => False end)).
      intros [x' m'|m' ws']; [apply few|apply at_most_none; tauto].
    + apply (at_most_le _ (N.of_nat (S (length (rows h))) ^ N.of_nat (k - 1) * order ^ N.of_nat (k - 1))).
      * apply N.mul_le_mono_r. apply N.pow_le_mono_l. pose proof (rows_length h). lia.
      * apply listed_at_most. apply listed_span.
Qed.
Definition total (n r : nat) : N := match r with 0%nat => 0 | S r' => N.of_nat r * bad_answers n * T ^ N.of_nat r' end.
Lemma total_step n r : total n (S r) = bad_answers n * T ^ N.of_nat r + T * total n r.
Proof.
  unfold total. destruct r as [|r]; [change (N.of_nat 0) with 0; change (N.of_nat 1) with 1; rewrite N.mul_0_r, N.add_0_r, N.mul_1_l; reflexivity|].
  rewrite (Nat2N.inj_succ (S r)), (Nat2N.inj_succ r), N.pow_succ_r by lia. rewrite <- !N.add_1_l.
  generalize (bad_answers n) (N.of_nat r) (T ^ N.of_nat r) T. intros. ring.
Qed.
Lemma hits_bound n g : forall h r, sound_history h -> (length h + r <= n)%nat ->
  at_most (fun answers => random_answers k r answers /\ hits h g answers) (total n r).
Proof.
  assert (Step : forall (next : N * list scalar -> search X) entry h r,
    (exists x, entry = fun a => HasNumber x (fst a)) \/ (exists number, entry = fun a => HasWeights number (snd a)) ->
    (forall a h r, sound_history h -> (length h + r <= n)%nat -> at_most (fun answers => random_answers k r answers /\ hits h (next a) answers) (total n r)) ->
    sound_history h -> (length h + S r <= n)%nat ->
    at_most (fun answers => random_answers k (S r) answers /\
       match answers with [] => False | a :: rest => bad h (entry a) \/ ~ bad h (entry a) /\ hits (entry a :: h) (next a) rest end) (total n (S r))).
  { intros next entry h r He IH Hs Hlen. rewrite total_step.
    assert (Hcons : forall a rest, random_answers k (S r) (a :: rest) -> (fst a < 2 ^ 64 /\ weight_row k (snd a)) /\ random_answers k r rest).
    { intros a rest (Hl & Hf). inversion Hf as [|? ? H1 H2]; subst. split; [exact H1|]. split; [cbn [length] in Hl; lia|exact H2]. }
    apply (at_most_or _ (fun as_ => random_answers k (S r) as_ /\ match as_ with [] => False | a :: rest => bad h (entry a) end)
                        (fun as_ => random_answers k (S r) as_ /\ match as_ with [] => False | a :: rest => ~ bad h (entry a) /\ hits (entry a :: h) (next a) rest end)).
    - intros [|a rest] (Hr & H); [destruct H|]. destruct H as [H|H]; [left|right]; split; assumption.
    - apply (at_most_cons answer_eq_dec _ (fun a => (fst a < 2 ^ 64 /\ weight_row k (snd a)) /\ bad h (entry a))).
      + intros [_ []].
      + intros a rest (Hr & H). split; [exact (proj1 (Hcons a rest Hr))|exact H].
      + apply bad_bound; [exact Hs|lia|exact He].
      + intros a. apply (at_most_sub _ (random_answers k r)); [|apply card_at_most; apply card_random_answers]. intros rest (Hr & _). exact (proj2 (Hcons a rest Hr)).
    - apply (at_most_cons answer_eq_dec _ (fun a => fst a < 2 ^ 64 /\ weight_row k (snd a))).
      + intros [_ []].
      + intros a rest (Hr & H). exact (proj1 (Hcons a rest Hr)).
      + apply card_at_most. apply card_one_answer.
      + intros a l Hl Hf. destruct l as [|x0 l]; [apply N.le_0_l|].
        assert (Ha : (fst a < 2 ^ 64 /\ weight_row k (snd a)) /\ ~ bad h (entry a)).
        { inversion Hf as [|? ? (H1 & H2 & _) _]; subst. split; [exact (proj1 (Hcons a x0 H1))|exact H2]. }
        assert (Hs' : sound_history (entry a :: h)).
        { destruct Ha as ((_ & Hw) & Hb). destruct Hs as [S1 S2]. destruct He as [(x & ->)|(number & ->)]; [split; assumption|]. unfold sound_history. cbn [rows].
          split; [constructor; assumption|]. split; [|exact S2]. intros Hc. apply Hb. right. exact Hc. }
        apply (IH a (entry a :: h) r Hs'); [cbn [length]; lia|exact Hl|]. eapply Forall_impl; [|exact Hf].
        intros rest (Hr & _ & H). split; [exact (proj2 (Hcons a rest Hr))|exact H]. }
  induction g as [|x next IH|number next IH]; intros h r Hs Hlen.
  - apply at_most_none. intros [|a rest] (_ & []).
  - destruct r as [|r]; [apply at_most_none; intros [|a rest] ((Hl & _) & H); [destruct H|discriminate]|].
    eapply at_most_sub; [|exact (Step (fun a => next (fst a)) (fun a => HasNumber x (fst a)) h r (or_introl (ex_intro _ x eq_refl)) (fun a => IH (fst a)) Hs Hlen)].
    intros [|a rest] (H1 & H2); [destruct H2|]. split; [exact H1|exact H2].
  - destruct r as [|r]; [apply at_most_none; intros [|a rest] ((Hl & _) & H); [destruct H|discriminate]|].
    eapply at_most_sub; [|exact (Step (fun a => next (snd a)) (fun a => HasWeights number (snd a)) h r (or_intror (ex_intro _ number eq_refl)) (fun a => IH (snd a)) Hs Hlen)].
    intros [|a rest] (H1 & H2); [destruct H2|]. split; [exact H1|exact H2].
Qed.

Lemma bad_share n : 2 ^ 250 * bad_answers n <= (N.of_nat (k - 1) * 2 ^ 186 + N.of_nat n ^ N.of_nat (k - 1)) * T.
Proof.
  unfold bad_answers.
  assert (Ho : (order - 1) ^ N.of_nat (k - 1) <= order ^ N.of_nat (k - 1)) by (apply N.pow_le_mono_l; generalize order; intros; lia).
  assert (Hn : N.of_nat n <= N.of_nat n ^ N.of_nat (k - 1)).
  { destruct n as [|n]; [apply N.le_0_l|]. rewrite <- (N.pow_1_r (N.of_nat (S n))) at 1. apply N.pow_le_mono_r; lia. }
  assert (H2 : 2 ^ 251 = 2 * 2 ^ 250) by reflexivity. assert (H3 : 2 ^ 250 = 2 ^ 186 * 2 ^ 64) by reflexivity.
  fold B in Hbig. rewrite H2 in Hbig. unfold T.
  revert Ho Hn Hbig H3. clear. generalize (N.of_nat n ^ N.of_nat (k - 1)) (order ^ N.of_nat (k - 1)) ((order - 1) ^ N.of_nat (k - 1)). generalize (N.of_nat n) B (N.of_nat (k - 1)) (2 ^ 250) (2 ^ 186) (2 ^ 64).
  intros n0 b k1 u v w nk o o' Ho Hn Hbig H3.
  assert (H4 : n0 * o' + nk * o <= 2 * (nk * o)).
  { pose proof (N.mul_le_mono n0 nk o' o Hn Ho) as Hm. lia. }
  replace (u * (k1 * b + w * (n0 * o' + nk * o))) with (k1 * u * b + w * (u * (n0 * o' + nk * o))) by ring.
  replace ((k1 * v + nk) * (w * b)) with (k1 * (v * w) * b + w * (nk * b)) by ring. rewrite <- H3. apply N.add_le_mono_l. apply N.mul_le_mono_l.
  transitivity (u * (2 * (nk * o))); [apply N.mul_le_mono_l; exact H4|]. replace (u * (2 * (nk * o))) with (nk * (2 * u * o)) by ring. apply N.mul_le_mono_l. exact Hbig.
Qed.
(** Of the sequences of [n] answers a share of at most [(k - 1) n / 2^64 + n^k / 2^250] lets the player succeed. *)
Theorem search_bound n g : exists c, has_card (fun answers => random_answers k n answers /\ finds cancels (learns g answers)) c /\
  c * 2 ^ 250 <= N.of_nat n * (N.of_nat (k - 1) * 2 ^ 186 + N.of_nat n ^ N.of_nat (k - 1)) * (2 ^ 64 * (order - 1) ^ N.of_nat k) ^ N.of_nat n.
Proof.
  destruct (card_sub_or [] (random_answers k n) (fun answers => finds cancels (learns g answers)) _ (fun as_ => finds_dec _) (card_random_answers k n)) as (c & Hc).
  exists c. split; [exact Hc|].
  assert (Hle : c <= total n n).
  { apply (at_most_card _ _ c Hc). apply (at_most_sub _ (fun as_ => random_answers k n as_ /\ hits [] g as_)).
    - intros as_ (Hr & Hf). split; [exact Hr|]. rewrite <- (app_nil_r (learns g as_)) in Hf. apply finds_hits in Hf. destruct Hf as [(x & nn & ws & [] & _)|H]. exact H.
    - apply hits_bound; [split; [constructor|exact I]|cbn [length]; lia]. }
  fold B. fold T. unfold total in Hle. destruct n as [|n']; [assert (c = 0) as -> by lia; rewrite N.mul_0_l; apply N.le_0_l|].
  set (n := S n') in *. pose proof (bad_share n) as Hb. replace (N.of_nat n) with (N.succ (N.of_nat n')) at 3 by (unfold n; lia). rewrite N.pow_succ_r by lia.
  revert Hle Hb. clear. generalize (bad_answers n) (N.of_nat (k - 1) * 2 ^ 186 + N.of_nat n ^ N.of_nat (k - 1)) (T ^ N.of_nat n'). generalize (N.of_nat n) T (2 ^ 250).
  intros m t0 u b s t Hle Hb. transitivity (m * b * t * u); [apply N.mul_le_mono_r; exact Hle|].
  replace (m * b * t * u) with (m * t * (u * b)) by ring. replace (m * s * (t0 * t)) with (m * t * (s * t0)) by ring. apply N.mul_le_mono_l. exact Hb.
Qed.
End Search.
