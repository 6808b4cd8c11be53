(** A random oracle that remembers: the first time a question is asked the next of a sequence of answers is given, and the same answer
    whenever the question is asked again.  Shared by both protocols. *)
From Verif Require Export SpecUniform Oracle.
From Verif Require Import CountWeights Algebra.
Local Open Scope N_scope.

Section Lazy.
Context {Q O : Type} (eqd : forall q q' : Q, {q = q'} + {q <> q'}).

(** * Specification *)
(** What has been asked, with the answers. *)
Fixpoint lookup (table : list (Q * bytes)) (q : Q) : option bytes :=
  match table with
  | [] => None
  | (q', a) :: rest => if eqd q' q then Some a else lookup rest q
  end.
(** The output of a player and all that it has asked; none if the answers run out first. *)
Fixpoint run (table : list (Q * bytes)) (g : game Q O) (answers : list bytes) : option (O * list (Q * bytes)) :=
  match g with
  | Stop o => Some (o, table)
  | Ask q next =>
      match lookup table q, answers with
      | Some a, _ => run table (next a) answers
      | None, [] => None
      | None, a :: rest => run ((q, a) :: table) (next a) rest
      end
  end.
(** Every output the player may stop with. *)
Fixpoint all_outputs (F : O -> Prop) (g : game Q O) : Prop :=
  match g with Stop o => F o | Ask q next => forall a, all_outputs F (next a) end.
(** The player confronted with a function: its output, and its different questions in the order in which they are first asked. *)
Fixpoint run_against (f : Q -> bytes) (g : game Q O) : O :=
  match g with Stop o => o | Ask q next => run_against f (next (f q)) end.
(** How many questions it asks. *)
Fixpoint asked (f : Q -> bytes) (g : game Q O) : nat :=
  match g with Stop _ => 0 | Ask q next => S (asked f (next (f q))) end.

(** * Facts *)
Lemma lookup_in table q a : lookup table q = Some a -> In (q, a) table.
Proof.
  induction table as [|[q' b] table IH]; cbn [lookup]; [discriminate|]. destruct (eqd q' q) as [->|Hne]; intros H.
  - injection H as ->. left. reflexivity.
  - right. exact (IH H).
Qed.
(** The table grows, keeps what it says, and holds answers from the sequence. *)
Lemma run_extends g : forall table answers o table', run table g answers = Some (o, table') ->
  (forall q a, lookup table q = Some a -> lookup table' q = Some a) /\
  exists fresh used rest, table' = fresh ++ table /\ answers = used ++ rest /\ map snd fresh = rev used.
Proof.
  induction g as [o|q next IH]; intros table answers o' table' H; cbn [run] in H.
  - injection H as <- <-. split; [tauto|]. exists [], [], answers. repeat split.
  - destruct (lookup table q) as [a|] eqn:Hq; [exact (IH a table answers o' table' H)|].
    destruct answers as [|a rest]; [discriminate|]. destruct (IH a _ _ _ _ H) as (H1 & fresh & used & rest' & E1 & E2 & E3). split.
    + intros q' b Hb. apply H1. cbn [lookup]. destruct (eqd q q') as [->|]; [congruence|exact Hb].
    + exists (fresh ++ [(q, a)]), (a :: used), rest'. rewrite <- app_assoc. split; [exact E1|]. split; [rewrite E2; reflexivity|].
      rewrite map_app, E3. reflexivity.
Qed.
Lemma run_ask q next table answers o table' : run table (Ask q next) answers = Some (o, table') ->
  exists a table1 answers1, lookup table' q = Some a /\ run table1 (next a) answers1 = Some (o, table').
Proof.
  cbn [run]. intros H. destruct (lookup table q) as [a|] eqn:Hq.
  - exists a, table, answers. split; [|exact H]. apply (proj1 (run_extends _ _ _ _ _ H)). exact Hq.
  - destruct answers as [|a rest]; [discriminate|]. exists a, ((q, a) :: table), rest. split; [|exact H].
    apply (proj1 (run_extends _ _ _ _ _ H)). cbn [lookup]. destruct (eqd q q); [reflexivity|congruence].
Qed.
Lemma run_output (F : O -> Prop) g : forall table answers o table', all_outputs F g -> run table g answers = Some (o, table') -> F o.
Proof.
  induction g as [o|q next IH]; intros table answers o' table' HF H; cbn [run all_outputs] in *.
  - injection H as <- <-. exact HF.
  - destruct (lookup table q) as [a|]; [exact (IH a _ _ _ _ (HF a) H)|]. destruct answers as [|a rest]; [discriminate|exact (IH a _ _ _ _ (HF a) H)].
Qed.
(** Two different questions with the same answer: two equal answers in the sequence. *)
Lemma lookup_collision table q q' a : lookup table q = Some a -> lookup table q' = Some a -> q <> q' -> ~ NoDup (map snd table).
Proof.
  intros H H' Hne Hnd. apply lookup_in in H. apply lookup_in in H'.
  induction table as [|[p b] table IH]; [destruct H|]. cbn [map snd] in Hnd. inversion Hnd as [|? ? Hn Hnd']; subst.
  destruct H as [H|H], H' as [H'|H'].
  - congruence.
  - injection H as -> ->. apply Hn. apply (in_map snd) in H'. exact H'.
  - injection H' as -> ->. apply Hn. apply (in_map snd) in H. exact H.
  - exact (IH H H' Hnd').
Qed.
Lemma NoDup_app_l {A} (l l' : list A) : NoDup (l ++ l') -> NoDup l.
Proof.
  induction l as [|x l IH]; cbn [app]; intros H; [constructor|]. inversion H as [|? ? H1 H2]; subst. constructor; [|exact (IH H2)].
  intros Hc. apply H1. apply in_or_app. left. exact Hc.
Qed.
Lemma run_collision g answers o table q q' a : run [] g answers = Some (o, table) ->
  lookup table q = Some a -> lookup table q' = Some a -> q <> q' -> ~ NoDup answers.
Proof.
  intros H H1 H2 Hne Hnd. destruct (run_extends g [] answers o table H) as (_ & fresh & used & rest & E1 & E2 & E3).
  rewrite app_nil_r in E1. subst table answers. apply (lookup_collision fresh q q' a H1 H2 Hne). rewrite E3.
  apply NoDup_rev. exact (NoDup_app_l _ _ Hnd).
Qed.
(** Playing against a function is one such run. *)
Lemma run_against_run (f : Q -> bytes) k g : (forall q, length (f q) = k) -> forall table, (forall q a, lookup table q = Some a -> a = f q) ->
  exists answers table', Forall (fun a => length a = k) answers /\ (length answers <= asked f g)%nat /\
    (forall extra, run table g (answers ++ extra) = Some (run_against f g, table')) /\ (forall q a, lookup table' q = Some a -> a = f q).
Proof.
  intros Hk. induction g as [o|q next IH]; intros table Ht; cbn [run run_against asked].
  - exists [], table. split; [constructor|]. split; [apply Nat.le_0_l|]. split; [reflexivity|exact Ht].
  - destruct (lookup table q) as [a|] eqn:Hq.
    + apply Ht in Hq as Ha. subst a. destruct (IH (f q) table Ht) as (answers & table' & H1 & Hl & H2 & H3).
      exists answers, table'. split; [exact H1|]. split; [lia|]. split; [exact H2|exact H3].
    + destruct (IH (f q) ((q, f q) :: table)) as (answers & table' & H1 & Hl & H2 & H3).
      * intros q' a H. cbn [lookup] in H. destruct (eqd q q') as [->|]; [congruence|exact (Ht q' a H)].
      * exists (f q :: answers), table'. split; [constructor; [apply Hk|exact H1]|]. split; [cbn [length]; lia|]. split; [|exact H3]. intros extra. exact (H2 extra).
Qed.
End Lazy.

(** * Sequences of answers with two equal answers *)
Definition answers_of_size (k n : nat) (answers : list bytes) : Prop := length answers = n /\ Forall (fun a => length a = k) answers.

Lemma card_answer_of_size k : has_card (fun a : bytes => length a = k) (256 ^ N.of_nat k).
Proof.
  exists (le_bytes k). split; [intros i _; apply le_bytes_length|]. intros a Ha. exists (le_val a). split.
  - split; [rewrite <- Ha; apply le_val_bound|]. rewrite <- Ha. apply le_bytes_le_val.
  - intros i (Hi & <-). apply le_val_le_bytes_small. exact Hi.
Qed.
Lemma card_answers_of_size k n : has_card (answers_of_size k n) ((256 ^ N.of_nat k) ^ N.of_nat n).
Proof. apply (card_lists (fun a : bytes => length a = k)). apply card_answer_of_size. Qed.

Lemma at_most_elements {A} (eqd : forall x y : A, {x = y} + {x <> y}) (l : list A) : at_most (fun x => In x l) (N.of_nat (length l)).
Proof.
  intros l' Hnd Hf. assert (H : (length l' <= length l)%nat); [|lia]. apply NoDup_incl_length; [exact Hnd|].
  intros x Hx. rewrite Forall_forall in Hf. exact (Hf x Hx).
Qed.
(** Sequences whose first answer comes again. *)
Lemma at_most_again k n : at_most (fun as_ => answers_of_size k (S n) as_ /\ match as_ with [] => False | a :: rest => In a rest end)
  ((256 ^ N.of_nat k) ^ N.of_nat n * N.of_nat n).
Proof.
  intros l Hnd Hf.
  assert (Hp : at_most (fun x : list bytes * bytes => answers_of_size k n (fst x) /\ In (snd x) (fst x)) ((256 ^ N.of_nat k) ^ N.of_nat n * N.of_nat n)).
  { apply (at_most_pairs (list_eq_dec bytes_eq_dec) _ (answers_of_size k n)).
    - intros r a [H _]. exact H.
    - apply card_at_most. apply card_answers_of_size.
    - intros r l' Hnd' Hf'. destruct l' as [|x l']; [apply N.le_0_l|].
      assert (Hr : length r = n) by (inversion Hf' as [|? ? ((H & _) & _) _]; exact H).
      rewrite <- Hr. apply (at_most_elements bytes_eq_dec r); [exact Hnd'|]. eapply Forall_impl; [|exact Hf']. intros a [_ H]. exact H. }
  assert (Hex : exists l', map (fun x : list bytes * bytes => snd x :: fst x) l' = l).
  { clear Hnd. induction l as [|x l IH]; [exists []; reflexivity|]. inversion Hf as [|? ? H1 H2]; subst. destruct (IH H2) as (l' & <-).
    destruct x as [|a r]; [destruct (proj2 H1)|]. exists ((r, a) :: l'). reflexivity. }
  destruct Hex as (l' & <-). rewrite map_length. apply Hp.
  - apply NoDup_map_inv in Hnd. exact Hnd.
  - apply Forall_forall. intros [r a] Hx. rewrite Forall_forall in Hf. apply (in_map (fun x : list bytes * bytes => snd x :: fst x)) in Hx.
    destruct (Hf _ Hx) as ((H1 & H2) & H3). inversion H2 as [|? ? H4 H5]; subst. cbn [fst snd length] in *. split; [split; [lia|exact H5]|exact H3].
Qed.

Fixpoint pairs_below (n : nat) : N := match n with 0%nat => 0 | S n' => N.of_nat n' + pairs_below n' end.
Lemma pairs_below_twice n : 2 * pairs_below n = N.of_nat n * (N.of_nat n - 1).
Proof.
  induction n as [|n IH]; [reflexivity|]. cbn [pairs_below]. rewrite N.mul_add_distr_l, IH, Nat2N.inj_succ.
  destruct (N.of_nat n) as [|p] eqn:Hn; [reflexivity|]. rewrite <- Hn. assert (H : 1 <= N.of_nat n) by lia. clear Hn p IH.
  replace (N.succ (N.of_nat n) - 1) with (N.of_nat n) by lia. revert H. generalize (N.of_nat n). intros x H.
  destruct (N.le_exists_sub 1 x H) as (y & -> & _). rewrite N.add_sub, <- N.add_1_l. ring.
Qed.
Lemma not_NoDup_cons {A} (eqd : forall x y : A, {x = y} + {x <> y}) (a : A) r : ~ NoDup (a :: r) -> In a r \/ ~ NoDup r.
Proof. intros H. destruct (in_dec eqd a r) as [Hi|Hi]; [left; exact Hi|right]. intros Hn. apply H. constructor; assumption. Qed.

Lemma at_most_repeating k n : at_most (fun as_ => answers_of_size k n as_ /\ ~ NoDup as_)
  (match n with 0%nat => 0 | S n' => pairs_below n * (256 ^ N.of_nat k) ^ N.of_nat n' end).
Proof.
  induction n as [|n IH].
  - intros l _ Hf. destruct l as [|x l]; [apply N.le_0_l|]. inversion Hf as [|? ? ((H1 & _) & H2) _]; subst. destruct x; [|discriminate].
    destruct H2. constructor.
  - apply (at_most_le _ ((256 ^ N.of_nat k) ^ N.of_nat n * N.of_nat n +
      256 ^ N.of_nat k * (match n with 0%nat => 0 | S n' => pairs_below n * (256 ^ N.of_nat k) ^ N.of_nat n' end))).
    { generalize (256 ^ N.of_nat k). intros t. destruct n as [|n]; [change (N.of_nat 0) with 0; rewrite !N.mul_0_r; apply N.le_0_l|].
      assert (Hp : t ^ N.of_nat (S n) = t * t ^ N.of_nat n) by (rewrite (Nat2N.inj_succ n), N.pow_succ_r by lia; reflexivity).
      rewrite Hp. change (pairs_below (S (S n))) with (N.of_nat (S n) + pairs_below (S n)). generalize (t ^ N.of_nat n) (pairs_below (S n)) (N.of_nat (S n)). intros a b c. apply N.eq_le_incl. ring. }
    apply (at_most_or _ (fun as_ => answers_of_size k (S n) as_ /\ match as_ with [] => False | a :: rest => In a rest end)
      (fun as_ => answers_of_size k (S n) as_ /\ match as_ with [] => False | a :: rest => ~ NoDup rest end)).
    + intros [|a rest] (Ha & Hw); [destruct Ha; discriminate|]. apply (not_NoDup_cons bytes_eq_dec) in Hw. destruct Hw as [Hw|Hw]; [left|right]; split; assumption.
    + apply at_most_again.
    + apply (at_most_cons bytes_eq_dec _ (fun a => length a = k)).
      * intros [_ []].
      * intros a r ((_ & H) & _). inversion H; assumption.
      * apply card_at_most. apply card_answer_of_size.
      * intros a. apply (at_most_sub _ (fun as_ => answers_of_size k n as_ /\ ~ NoDup as_)); [|exact IH].
        intros r ((Hl & Hf) & Hw). inversion Hf; subst. cbn [length] in Hl. split; [split; [lia|assumption]|exact Hw].
Qed.

(** Events that need two equal answers among [n] are rare. *)
Theorem birthday_bound (P : list bytes -> Prop) k n : (forall as_, P as_ \/ ~ P as_) -> (forall as_, P as_ -> ~ NoDup as_) ->
  exists c, has_card (fun as_ => answers_of_size k n as_ /\ P as_) c /\
    2 * c * 256 ^ N.of_nat k <= N.of_nat n * (N.of_nat n - 1) * (256 ^ N.of_nat k) ^ N.of_nat n.
Proof.
  intros Hd HP. destruct (card_sub_or [] (answers_of_size k n) P _ Hd (card_answers_of_size k n)) as (c & Hc). exists c. split; [exact Hc|].
  pose proof (at_most_card _ _ c Hc (at_most_sub _ _ _ (fun as_ H => conj (proj1 H) (HP as_ (proj2 H))) (at_most_repeating k n))) as Hle.
  rewrite <- pairs_below_twice. destruct n as [|n]; [assert (c = 0) as -> by lia; rewrite N.mul_0_r, N.mul_0_l; apply N.le_0_l|].
  rewrite (Nat2N.inj_succ n). rewrite N.pow_succ_r by lia. revert Hle. generalize (256 ^ N.of_nat k). intros t.
  generalize (t ^ N.of_nat n) (pairs_below (S n)). intros x y Hle. apply (N.mul_le_mono_l _ _ (2 * t)) in Hle.
  etransitivity; [|etransitivity; [exact Hle|]]; apply N.eq_le_incl; ring.
Qed.
