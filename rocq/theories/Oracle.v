(** Games with a random oracle, shared by both protocols: a player asks questions, gets 64 bytes in answer to each, and stops with an
    output that refers to one of its questions.  Counting the sequences of answers on which it wins. *)
From Verif Require Export SpecUniform.
From Verif Require Import Uniform CountWeights SoundnessError Algebra.
Local Open Scope N_scope.

(** * Specification *)

(** A player: what it does next may depend on all answers so far, and nothing is assumed about how it computes. *)
Inductive game (Q O : Type) : Type := Stop (o : O) | Ask (q : Q) (next : bytes -> game Q O).
Arguments Stop {Q O} o.
Arguments Ask {Q O} q next.

Section Games.
Context {Q O : Type}.

(** The questions asked with their answers, and the output (none if the answers run out first). *)
Fixpoint play (g : game Q O) (answers : list bytes) : list (Q * bytes) * option O :=
  match g with
  | Stop o => ([], Some o)
  | Ask q next =>
      match answers with
      | [] => ([], None)
      | a :: rest => let (h, o) := play (next a) rest in ((q, a) :: h, o)
      end
  end.
(** Every question that the player may ask. *)
Fixpoint all_questions (F : Q -> Prop) (g : game Q O) : Prop :=
  match g with Stop _ => True | Ask q next => F q /\ forall a, all_questions F (next a) end.

(** [at] is the number of the question that an output refers to; [good q xi o]: output [o] is right for question [q] if the answer to it
    stands for the scalar [xi]. *)
Context (at_ : O -> nat) (good : Q -> scalar -> O -> Prop).
Definition wins (g : game Q O) (answers : list bytes) : Prop :=
  exists o q a, snd (play g answers) = Some o /\ nth_error (fst (play g answers)) (at_ o) = Some (q, a) /\ good q (scalar_from_wide a) o.
(** [n] answers of 64 bytes. *)
Definition answers_of (n : nat) (answers : list bytes) : Prop := length answers = n /\ Forall (fun a => length a = 64%nat) answers.
(** The number of 64-byte answers that can stand for the same scalar. *)
Definition per_scalar : N := 2 ^ 512 / order + 1.
(** Runs that agree up to a question, get answers for [k] different scalars to it and all win with it. *)
Definition fork (k : nat) (g : game Q O) (q : Q) (runs : list (scalar * O)) : Prop :=
  length runs = k /\ NoDup (map fst runs) /\
  exists prefix, forall xi o, In (xi, o) runs -> exists a rest, xi = scalar_from_wide a /\
    snd (play g (prefix ++ a :: rest)) = Some o /\ at_ o = length prefix /\
    nth_error (fst (play g (prefix ++ a :: rest))) (length prefix) = Some (q, a) /\ good q xi o.

(** * Counting *)
Definition at_most {A} (P : A -> Prop) (n : N) : Prop := forall l, NoDup l -> Forall P l -> N.of_nat (length l) <= n.

End Games.

Section Counting.
Lemma at_most_sub {A} (P P' : A -> Prop) n : (forall x, P x -> P' x) -> at_most P' n -> at_most P n.
Proof. intros H H' l Hl Hf. apply H'; [exact Hl|]. eapply Forall_impl; [|exact Hf]. exact H. Qed.
Lemma at_most_le {A} (P : A -> Prop) n n' : n <= n' -> at_most P n -> at_most P n'.
Proof. intros Hle H l Hl Hf. specialize (H l Hl Hf). lia. Qed.
Lemma at_most_card {A} (P : A -> Prop) n c : has_card P c -> at_most P n -> c <= n.
Proof. intros Hc H. destruct (card_list P c Hc) as (l & Hl & <- & Hin). apply H; [exact Hl|]. apply Forall_forall. intros x Hx. apply Hin. exact Hx. Qed.
Lemma card_at_most {A} (P : A -> Prop) c : has_card P c -> at_most P c.
Proof.
  intros Hc l Hl Hf. destruct (card_list P c Hc) as (l' & Hl' & <- & Hin). cut (length l <= length l')%nat; [lia|]. apply NoDup_incl_length; [exact Hl|].
  intros x Hx. apply Hin. rewrite Forall_forall in Hf. exact (Hf x Hx).
Qed.
Lemma at_most_or {A} (P S T : A -> Prop) a b : (forall x, P x -> S x \/ T x) -> at_most S a -> at_most T b -> at_most P (a + b).
Proof.
  intros Hor Ha Hb l Hl Hf.
  assert (H : exists l1 l2, NoDup l1 /\ NoDup l2 /\ Forall S l1 /\ Forall T l2 /\ (forall x, In x l1 \/ In x l2 -> In x l) /\ length l = (length l1 + length l2)%nat).
  { induction Hl as [|x l Hx Hl IH].
    - exists [], []. repeat split; try constructor. intros x [[]|[]].
    - inversion Hf as [|? ? H1 H2]; subst. destruct (IH H2) as (l1 & l2 & N1 & N2 & F1 & F2 & Hin & Hlen). destruct (Hor x H1) as [HS|HT].
      + exists (x :: l1), l2. split; [constructor; [intros H; apply Hx; apply Hin; left; exact H|exact N1]|]. split; [exact N2|]. split; [constructor; assumption|].
        split; [exact F2|]. split; [|cbn [length]; lia]. intros y [[<-|Hy]|Hy]; [left; reflexivity|right; apply Hin; left; exact Hy|right; apply Hin; right; exact Hy].
      + exists l1, (x :: l2). split; [exact N1|]. split; [constructor; [intros H; apply Hx; apply Hin; right; exact H|exact N2]|]. split; [exact F1|].
        split; [constructor; assumption|]. split; [|cbn [length]; lia]. intros y [Hy|[<-|Hy]]; [right; apply Hin; left; exact Hy|left; reflexivity|right; apply Hin; right; exact Hy]. }
  destruct H as (l1 & l2 & N1 & N2 & F1 & F2 & _ & Hlen). specialize (Ha l1 N1 F1). specialize (Hb l2 N2 F2). lia.
Qed.
Lemma filter_split {A} (f : A -> bool) l : length l = (length (filter f l) + length (filter (fun x => negb (f x)) l))%nat.
Proof. induction l as [|x l IH]; [reflexivity|]. cbn [filter]. destruct (f x); cbn [negb length]; lia. Qed.
Lemma NoDup_map_snd {A B} (x : A) (l : list (A * B)) : NoDup l -> (forall y, In y l -> fst y = x) -> NoDup (map snd l).
Proof.
  intros Hl Hx. induction Hl as [|[a b] l Hn Hl IH]; [constructor|]. cbn [map snd]. constructor.
  - intros Hc. apply in_map_iff in Hc. destruct Hc as ([a' b'] & He & Hin). cbn [snd] in He. subst b'. apply Hn.
    pose proof (Hx (a, b) (or_introl eq_refl)) as E1. pose proof (Hx (a', b) (or_intror Hin)) as E2. cbn [fst] in E1, E2. congruence.
  - apply IH. intros y Hy. apply Hx. right. exact Hy.
Qed.
Lemma at_most_pairs {A B} (eqd : forall x y : A, {x = y} + {x <> y}) (P : A * B -> Prop) (H : A -> Prop) h t :
  (forall x y, P (x, y) -> H x) -> at_most H h -> (forall x, at_most (fun y => P (x, y)) t) -> at_most P (h * t).
Proof.
  intros HP Hh Ht l Hl Hf.
  assert (Hgen : forall hs l, NoDup l -> Forall P l -> (forall y, In y l -> In (fst y) hs) -> N.of_nat (length l) <= N.of_nat (length hs) * t).
  { clear l Hl Hf. induction hs as [|x hs IH]; intros l Hl Hf Hin.
    - destruct l as [|y l]; [cbn; lia|]. destruct (Hin y (or_introl eq_refl)).
    - set (f := fun y : A * B => if eqd (fst y) x then true else false). rewrite (filter_split f l).
      assert (H1 : N.of_nat (length (filter f l)) <= t).
      { rewrite <- (map_length snd). apply (Ht x).
        - apply (NoDup_map_snd x); [apply NoDup_filter; exact Hl|]. intros y Hy. apply filter_In in Hy. unfold f in Hy. destruct (eqd (fst y) x); [assumption|destruct Hy; discriminate].
        - apply Forall_forall. intros y Hy. apply in_map_iff in Hy. destruct Hy as ([a b] & <- & Hy). apply filter_In in Hy. unfold f in Hy. cbn [fst snd] in *.
          destruct (eqd a x) as [->|]; [|destruct Hy; discriminate]. rewrite Forall_forall in Hf. apply Hf. tauto. }
      assert (H2 : N.of_nat (length (filter (fun y => negb (f y)) l)) <= N.of_nat (length hs) * t).
      { apply IH; [apply NoDup_filter; exact Hl| |].
        - apply Forall_forall. intros y Hy. apply filter_In in Hy. rewrite Forall_forall in Hf. apply Hf. tauto.
        - intros y Hy. apply filter_In in Hy. destruct Hy as [Hy Hn]. unfold f in Hn. destruct (Hin y Hy) as [E|E]; [|exact E]. destruct (eqd (fst y) x); [discriminate|congruence]. }
      cbn [length]. lia. }
  specialize (Hgen (nodup eqd (map fst l)) l Hl Hf). etransitivity; [apply Hgen|].
  - intros y Hy. apply nodup_In. apply in_map. exact Hy.
  - apply N.mul_le_mono_r. apply Hh; [apply NoDup_nodup|]. apply Forall_forall. intros x Hx. apply nodup_In in Hx. apply in_map_iff in Hx. destruct Hx as ([a b] & <- & Hy).
    rewrite Forall_forall in Hf. exact (HP _ _ (Hf _ Hy)).
Qed.
Lemma at_most_cons {A} (eqd : forall x y : A, {x = y} + {x <> y}) (P : list A -> Prop) (H : A -> Prop) h t :
  ~ P [] -> (forall x r, P (x :: r) -> H x) -> at_most H h -> (forall x, at_most (fun r => P (x :: r)) t) -> at_most P (h * t).
Proof.
  intros Hnil HP Hh Ht l Hl Hf.
  assert (Hpairs : at_most (fun x : A * list A => P (fst x :: snd x)) (h * t)).
  { apply (at_most_pairs eqd _ H); [intros x y; apply HP|exact Hh|intros x; exact (Ht x)]. }
  assert (Hex : exists l', map (fun x : A * list A => fst x :: snd x) l' = l).
  { clear Hl. induction l as [|x l IH]; [exists []; reflexivity|]. inversion Hf as [|? ? H1 H2]; subst. destruct (IH H2) as (l' & <-).
    destruct x as [|a r]; [destruct (Hnil H1)|]. exists ((a, r) :: l'). reflexivity. }
  destruct Hex as (l' & <-). rewrite map_length. apply Hpairs.
  - apply NoDup_map_inv in Hl. exact Hl.
  - apply Forall_forall. intros x Hx. rewrite Forall_forall in Hf. apply Hf. apply (in_map (fun x : A * list A => fst x :: snd x)). exact Hx.
Qed.

(** * Finite sets: search *)
Lemma finite_or {A} (S P T : A -> Prop) c : has_card S c -> (forall x, S x -> P x \/ T x) -> (forall x, S x -> P x) \/ (exists x, S x /\ T x).
Proof.
  intros Hc Hor. destruct (card_list S c Hc) as (l & _ & _ & Hin).
  assert (H : (forall x, In x l -> P x) \/ (exists x, In x l /\ T x)).
  { assert (Hs : forall x, In x l -> S x) by (intros x; apply Hin). clear Hin. induction l as [|x l IH]; [left; intros x []|].
    destruct (Hor x (Hs x (or_introl eq_refl))) as [Hx|Hx]; [|right; exists x; split; [left; reflexivity|exact Hx]].
    destruct (IH (fun y Hy => Hs y (or_intror Hy))) as [H|(y & Hy & Hy')]; [|right; exists y; split; [right; exact Hy|exact Hy']].
    left. intros y [<-|Hy]; [exact Hx|exact (H y Hy)]. }
  destruct H as [H|(x & Hx & HT)]; [left; intros x Hx; apply H; apply Hin; exact Hx|right; exists x; split; [apply Hin; exact Hx|exact HT]].
Qed.
Lemma card_sub_or {A} (d : A) (S P : A -> Prop) c : (forall x, P x \/ ~ P x) -> has_card S c -> exists c', has_card (fun x => S x /\ P x) c'.
Proof.
  intros Hd Hc. destruct (card_list S c Hc) as (l & Hl & _ & Hin).
  assert (H : exists l', NoDup l' /\ forall x, In x l' <-> In x l /\ P x).
  { clear Hin. induction Hl as [|x l Hx Hl IH]; [exists []; split; [constructor|intros x; cbn; tauto]|]. destruct IH as (l' & N' & H').
    destruct (Hd x) as [HP|HP].
    - exists (x :: l'). split; [constructor; [intros Hc'; apply H' in Hc'; tauto|exact N']|]. intros y. cbn [In]. rewrite H'. split; [intros [<-|[? ?]]; tauto|tauto].
    - exists l'. split; [exact N'|]. intros y. cbn [In]. rewrite H'. split; [tauto|]. intros [[<-|Hy] Hp]; tauto. }
  destruct H as (l' & N' & H'). exists (N.of_nat (length l')). apply (list_card d); [exact N'|]. intros x. rewrite H', Hin. tauto.
Qed.
Lemma card_scalars : has_card (fun _ : scalar => True) order.
Proof.
  assert (Hsmall : forall k, k < order -> sval (smk (Z.of_N k)) = Z.of_N k).
  { intros k Hk. rewrite sval_smk. apply Z.mod_small. rewrite <- order_Z. generalize dependent order. intros o Hk. lia. }
  exists (fun k => smk (Z.of_N k)). split; [trivial|]. intros s _. pose proof (sval_range s) as Hr. rewrite <- order_Z in Hr.
  exists (Z.to_N (sval s)). split.
  - split; [generalize dependent order; intros; lia|]. rewrite Z2N.id by lia. apply smk_sval.
  - intros k (Hk & <-). rewrite Hsmall by exact Hk. lia.
Qed.
Lemma NoDup_front {A} (l l' : list A) : NoDup (l ++ l') -> NoDup l.
Proof.
  induction l as [|x l IH]; cbn [app]; intros H; [constructor|]. inversion H as [|? ? H1 H2]; subst. constructor; [|exact (IH H2)].
  intros Hc. apply H1. apply in_or_app. left. exact Hc.
Qed.
(** As [few_or_many], for properties that are decided without computing. *)
Lemma few_or_many_or (P : scalar -> Prop) : (forall s, P s \/ ~ P s) -> forall k, at_most P (N.of_nat k) \/
  (exists some, NoDup some /\ length some = S k /\ forall s, In s some -> P s).
Proof.
  intros Hd k. destruct (card_sub_or s0 _ P _ Hd card_scalars) as (c & Hc). destruct (card_list _ c Hc) as (l & Hl & Hlen & Hin).
  destruct (Nat.le_gt_cases (length l) k) as [Hle|Hgt].
  - left. apply (at_most_sub P (fun x => True /\ P x)); [tauto|]. apply (at_most_le _ c); [lia|]. apply card_at_most. exact Hc.
  - right. exists (firstn (S k) l). split; [|split].
    + rewrite <- (firstn_skipn (S k) l) in Hl. exact (NoDup_front _ _ Hl).
    + rewrite firstn_length. lia.
    + intros s Hs. apply (Hin s). rewrite <- (firstn_skipn (S k) l). apply in_or_app. left. exact Hs.
Qed.
Lemma bytes_eq_dec (x y : bytes) : {x = y} + {x <> y}.
Proof. apply list_eq_dec. apply Byte.byte_eq_dec. Qed.
End Counting.

Lemma card_answer : has_card (fun a : bytes => length a = 64%nat) (2 ^ 512).
Proof.
  pose proof byte_count as Hb. generalize dependent (2 ^ 512). intros total Hb.
  exists (le_bytes 64). split; [intros k _; apply le_bytes_length|]. intros a Ha. exists (le_val a). split.
  - split; [rewrite <- Hb, <- Ha; apply le_val_bound|]. rewrite <- Ha. apply le_bytes_le_val.
  - intros k (Hk & <-). rewrite <- Hb in Hk. apply le_val_le_bytes_small. exact Hk.
Qed.
Lemma card_answers n : has_card (answers_of n) ((2 ^ 512) ^ N.of_nat n).
Proof. apply (card_lists (fun a : bytes => length a = 64%nat)). exact card_answer. Qed.
Lemma at_most_per_scalar (s : scalar) : at_most (fun a => length a = 64%nat /\ scalar_from_wide a = s) per_scalar.
Proof.
  apply (at_most_le _ (share (2 ^ 512) order (Z.to_N (sval s)))); [|apply card_at_most; apply card_wide].
  unfold share, per_scalar. generalize (2 ^ 512). intros t. generalize (t / order). intros d. destruct (_ <? _); lia.
Qed.
(** Answers that stand for one of at most [k] scalars. *)
Lemma at_most_answers (P : scalar -> Prop) k : at_most P k -> at_most (fun a => length a = 64%nat /\ P (scalar_from_wide a)) (k * per_scalar).
Proof.
  intros Hk l Hl Hf.
  assert (H : at_most (fun x : scalar * bytes => (length (snd x) = 64%nat /\ scalar_from_wide (snd x) = fst x) /\ P (fst x)) (k * per_scalar)).
  { apply (at_most_pairs scalar_eq_dec _ P); [cbn; tauto|exact Hk|]. intros s. apply (at_most_sub _ (fun a => length a = 64%nat /\ scalar_from_wide a = s)); [cbn; tauto|].
    apply at_most_per_scalar. }
  rewrite <- (map_length (fun a => (scalar_from_wide a, a))). apply H.
  - clear - Hl. induction Hl as [|x l Hx Hl IH]; [constructor|]. cbn [map]. constructor; [|exact IH].
    intros Hc. apply in_map_iff in Hc. destruct Hc as (y & He & Hy). injection He as _ ->. exact (Hx Hy).
  - apply Forall_forall. intros x Hx. apply in_map_iff in Hx. destruct Hx as (a & <- & Ha). cbn [fst snd]. rewrite Forall_forall in Hf. destruct (Hf a Ha). auto.
Qed.

Section Bound.
Context {Q O : Type} (at_ : O -> nat) (good : Q -> scalar -> O -> Prop) (good_dec : forall q xi o, good q xi o \/ ~ good q xi o).

(** Winning with a question of a part of the game that starts after [d] questions. *)
Definition wins_from (d : nat) (g : game Q O) (answers : list bytes) : Prop :=
  exists o q a, snd (play g answers) = Some o /\ (d <= at_ o)%nat /\ nth_error (fst (play g answers)) (at_ o - d) = Some (q, a) /\ good q (scalar_from_wide a) o.
Definition fork_from (d k : nat) (g : game Q O) (q : Q) (runs : list (scalar * O)) : Prop :=
  length runs = k /\ NoDup (map fst runs) /\
  exists prefix, forall xi o, In (xi, o) runs -> exists a rest, xi = scalar_from_wide a /\
    snd (play g (prefix ++ a :: rest)) = Some o /\ at_ o = (d + length prefix)%nat /\
    nth_error (fst (play g (prefix ++ a :: rest))) (length prefix) = Some (q, a) /\ good q xi o.
(** Winning with the first question. *)
Definition wins_now (d : nat) (q : Q) (next : bytes -> game Q O) (a : bytes) (rest : list bytes) : Prop :=
  exists o, snd (play (next a) rest) = Some o /\ at_ o = d /\ good q (scalar_from_wide a) o.

Lemma play_cons (q : Q) (next : bytes -> game Q O) a rest : fst (play (Ask q next) (a :: rest)) = (q, a) :: fst (play (next a) rest) /\ snd (play (Ask q next) (a :: rest)) = snd (play (next a) rest).
Proof. cbn [play]. destruct (play (next a) rest); split; reflexivity. Qed.
Lemma wins_from_cons d q next a rest : wins_from d (Ask q next) (a :: rest) <-> wins_now d q next a rest \/ wins_from (S d) (next a) rest.
Proof.
  unfold wins_from, wins_now. rewrite (proj1 (play_cons q next a rest)), (proj2 (play_cons q next a rest)). split.
  - intros (o & q' & a' & H1 & H2 & H3 & H4). destruct (Nat.eq_dec (at_ o) d) as [He|He].
    + rewrite He, Nat.sub_diag in H3. injection H3 as <- <-. left. exists o. auto.
    + right. replace (at_ o - d)%nat with (S (at_ o - S d)) in H3 by lia. exists o, q', a'. split; [exact H1|]. split; [lia|]. split; [exact H3|exact H4].
  - intros [(o & H1 & H2 & H3)|(o & q' & a' & H1 & H2 & H3 & H4)].
    + exists o, q, a. split; [exact H1|]. split; [lia|]. rewrite H2, Nat.sub_diag. split; [reflexivity|exact H3].
    + exists o, q', a'. split; [exact H1|]. split; [lia|]. replace (at_ o - d)%nat with (S (at_ o - S d)) by lia. split; [exact H3|exact H4].
Qed.
Lemma wins_now_dec d q next a rest : wins_now d q next a rest \/ ~ wins_now d q next a rest.
Proof.
  unfold wins_now. destruct (snd (play (next a) rest)) as [o|]; [|right; intros (o & H & _); discriminate].
  destruct (Nat.eq_dec (at_ o) d) as [He|He]; [|right; intros (o' & H & H' & _); injection H as <-; exact (He H')].
  destruct (good_dec q (scalar_from_wide a) o) as [Hg|Hg]; [left; exists o; auto|right; intros (o' & H & _ & H'); injection H as <-; exact (Hg H')].
Qed.

Definition bound (k n : nat) : N := match n with 0%nat => 0 | S n' => N.of_nat n * N.of_nat k * per_scalar * (2 ^ 512) ^ N.of_nat n' end.
Lemma bound_step (k n : nat) : bound k (S n) = N.of_nat k * per_scalar * (2 ^ 512) ^ N.of_nat n + 2 ^ 512 * bound k n.
Proof.
  unfold bound. destruct n as [|n]; [change (N.of_nat 0) with 0; change (N.of_nat 1) with 1; rewrite N.mul_0_r, N.add_0_r, N.mul_1_l; reflexivity|].
  assert (Hp : (2 ^ 512) ^ N.of_nat (S n) = 2 ^ 512 * (2 ^ 512) ^ N.of_nat n) by (rewrite (Nat2N.inj_succ n), N.pow_succ_r by lia; reflexivity).
  rewrite Hp, (Nat2N.inj_succ (S n)), <- N.add_1_l. generalize per_scalar (N.of_nat k) (N.of_nat (S n)) ((2 ^ 512) ^ N.of_nat n). generalize (2 ^ 512). intros. ring.
Qed.

Lemma forks_or_bound k : forall g d n, at_most (fun as_ => answers_of n as_ /\ wins_from d g as_) (bound k n) \/ exists q runs, fork_from d (S k) g q runs.
Proof.
  induction g as [o|q next IH]; intros d n.
  - left. intros l _ Hf. destruct l as [|x l]; [apply N.le_0_l|]. inversion Hf as [|? ? (_ & H) _]; subst. destruct H as (o' & q & a & _ & _ & H & _).
    cbn [play fst] in H. destruct (at_ o' - d)%nat; discriminate.
  - destruct n as [|n].
    { left. intros l _ Hf. destruct l as [|x l]; [apply N.le_0_l|]. inversion Hf as [|? ? ((Hx & _) & H) _]; subst. destruct x; [|discriminate].
      destruct H as (o' & q' & a & H & _). discriminate. }
    destruct (finite_or _ (fun a => at_most (fun as_ => answers_of n as_ /\ wins_from (S d) (next a) as_) (bound k n))
      (fun a => exists q runs, fork_from (S d) (S k) (next a) q runs) _ card_answer (fun a _ => IH a (S d) n)) as [Hlater|(a & _ & q' & runs & H1 & H2 & prefix & H3)].
    2:{ right. exists q', runs. split; [exact H1|]. split; [exact H2|]. exists (a :: prefix). intros xi o Hin. destruct (H3 xi o Hin) as (a' & rest & E1 & E2 & E3 & E4 & E5).
        exists a', rest. cbn [app]. rewrite (proj1 (play_cons q next a _)), (proj2 (play_cons q next a _)). cbn [length nth_error].
        split; [exact E1|]. split; [exact E2|]. split; [lia|]. split; [exact E4|exact E5]. }
    (* the first question *)
    pose (P := fun xi => exists a, length a = 64%nat /\ scalar_from_wide a = xi /\ exists rest, answers_of n rest /\ wins_now d q next a rest).
    assert (HP : forall xi, P xi \/ ~ P xi).
    { intros xi. destruct (finite_or _ (fun a => ~ (scalar_from_wide a = xi /\ exists rest, answers_of n rest /\ wins_now d q next a rest))
        (fun a => scalar_from_wide a = xi /\ exists rest, answers_of n rest /\ wins_now d q next a rest) _ card_answer) as [H|(a & Ha & H)].
      - intros a Ha. destruct (scalar_eq_dec (scalar_from_wide a) xi) as [He|He]; [|left; tauto].
        destruct (finite_or _ (fun rest => ~ wins_now d q next a rest) (fun rest => wins_now d q next a rest) _ (card_answers n)) as [H|H].
        + intros rest _. destruct (wins_now_dec d q next a rest); tauto.
        + left. intros (_ & rest & Hr & Hw). exact (H rest Hr Hw).
        + right. split; [exact He|exact H].
      - right. intros (a & Ha & H'). exact (H a Ha H').
      - left. exists a. split; [exact Ha|exact H]. }
    destruct (few_or_many_or P HP k) as [Hfew|(some & Hnd & Hlen & Hsome)].
    + left. rewrite bound_step. apply (at_most_or _ (fun as_ => answers_of (S n) as_ /\ match as_ with [] => False | a :: rest => wins_now d q next a rest end)
        (fun as_ => answers_of (S n) as_ /\ match as_ with [] => False | a :: rest => wins_from (S d) (next a) rest end)).
      * intros [|a rest] (Ha & Hw); [destruct Ha; discriminate|]. apply wins_from_cons in Hw. destruct Hw as [Hw|Hw]; [left|right]; split; assumption.
      * apply (at_most_cons bytes_eq_dec _ (fun a => length a = 64%nat /\ P (scalar_from_wide a))); [tauto| |apply at_most_answers; exact Hfew|].
        -- intros a rest ((Hl & Hf) & Hw). inversion Hf as [|? ? H1 H2]; subst. split; [exact H1|]. exists a. split; [exact H1|]. split; [reflexivity|].
           exists rest. split; [split; [cbn [length] in Hl; lia|exact H2]|exact Hw].
        -- intros a. apply (at_most_sub _ (answers_of n)); [|apply card_at_most; apply card_answers].
           intros rest ((Hl & Hf) & _). inversion Hf; subst. split; [cbn [length] in Hl; lia|assumption].
      * apply (at_most_cons bytes_eq_dec _ (fun a => length a = 64%nat)); [tauto| |apply card_at_most; exact card_answer|].
        -- intros a rest ((Hl & Hf) & Hw). inversion Hf; assumption.
        -- intros a l Hl Hf. destruct l as [|x l]; [apply N.le_0_l|].
           assert (Ha : length a = 64%nat) by (inversion Hf as [|? ? ((_ & H) & _) _]; inversion H; assumption).
           apply (Hlater a Ha); [exact Hl|]. eapply Forall_impl; [|exact Hf]. intros rest ((Hlr & Hfr) & Hw). inversion Hfr; subst.
           split; [split; [cbn [length] in Hlr; lia|assumption]|exact Hw].
    + right. exists q.
      assert (H : forall some, (forall s, In s some -> P s) -> exists runs, map fst runs = some /\ forall xi o, In (xi, o) runs -> exists a rest, xi = scalar_from_wide a /\
        snd (play (Ask q next) (a :: rest)) = Some o /\ at_ o = d /\ nth_error (fst (play (Ask q next) (a :: rest))) 0 = Some (q, a) /\ good q xi o).
      { clear. induction some as [|s some IH]; intros H; [exists []; split; [reflexivity|intros xi o []]|].
        destruct (IH (fun x Hx => H x (or_intror Hx))) as (runs & Hm & Hr). destruct (H s (or_introl eq_refl)) as (a & _ & <- & rest & _ & o & W1 & W2 & W3).
        exists ((scalar_from_wide a, o) :: runs). split; [cbn [map fst]; rewrite Hm; reflexivity|]. intros xi o' [He|Hin]; [|exact (Hr xi o' Hin)].
        injection He as <- <-. exists a, rest. rewrite (proj1 (play_cons q next a rest)), (proj2 (play_cons q next a rest)). auto. }
      destruct (H some Hsome) as (runs & Hm & Hr). exists runs. split; [rewrite <- (map_length fst), Hm; exact Hlen|]. split; [rewrite Hm; exact Hnd|].
      exists []. intros xi o Hin. destruct (Hr xi o Hin) as (a & rest & E1 & E2 & E3 & E4 & E5). exists a, rest. cbn [app length]. rewrite Nat.add_0_r. auto.
Qed.

Lemma wins_from_0 g as_ : wins_from 0 g as_ <-> wins at_ good g as_.
Proof.
  unfold wins_from, wins. split; intros (o & q & a & H); exists o, q, a; rewrite Nat.sub_0_r in *; [tauto|].
  destruct H as (H1 & H2 & H3). split; [exact H1|]. split; [lia|]. split; [exact H2|exact H3].
Qed.
Lemma wins_dec g as_ : wins at_ good g as_ \/ ~ wins at_ good g as_.
Proof.
  unfold wins. destruct (snd (play g as_)) as [o|]; [|right; intros (o & q & a & H & _); discriminate].
  destruct (nth_error (fst (play g as_)) (at_ o)) as [[q a]|] eqn:He.
  - destruct (good_dec q (scalar_from_wide a) o) as [Hg|Hg]; [left; exists o, q, a; auto|right]. intros (o' & q' & a' & H1 & H2 & H3). injection H1 as <-.
    rewrite He in H2. injection H2 as <- <-. exact (Hg H3).
  - right. intros (o' & q & a & H1 & H2 & _). injection H1 as <-. rewrite He in H2. discriminate.
Qed.
Lemma play_questions (F : Q -> Prop) (g : game Q O) : all_questions F g -> forall as_, Forall (fun x : Q * bytes => F (fst x)) (fst (play g as_)).
Proof.
  induction g as [o|q next IH]; intros H as_; [constructor|]. destruct as_ as [|a rest]; [constructor|]. rewrite (proj1 (play_cons q next a rest)).
  destruct H as [H1 H2]. constructor; [exact H1|apply IH; apply H2].
Qed.

(** The sequences of [n] answers on which the player wins are at most a fraction of [n * k / l] (rounded up as the number of answers for
    each scalar is), unless there are [k + 1] winning runs that fork at a question. *)
Theorem game_bound (F : Q -> Prop) k n (g : game Q O) : all_questions F g ->
  exists c, has_card (fun as_ => answers_of n as_ /\ wins at_ good g as_) c /\
    (c * 2 ^ 512 <= N.of_nat n * N.of_nat k * per_scalar * (2 ^ 512) ^ N.of_nat n \/
     exists q runs, F q /\ fork at_ good (S k) g q runs).
Proof.
  intros HF. destruct (card_sub_or [] (answers_of n) (wins at_ good g) _ (wins_dec g) (card_answers n)) as (c & Hc). exists c. split; [exact Hc|].
  destruct (forks_or_bound k g 0 n) as [H|(q & runs & H1 & H2 & prefix & H3)].
  - left. assert (Hle : c <= bound k n).
    { apply (at_most_card _ _ c Hc). apply (at_most_sub _ _ _ (fun as_ H => conj (proj1 H) (proj2 (wins_from_0 g as_) (proj2 H))) H). }
    destruct n as [|n]; [unfold bound in Hle; assert (c = 0) as -> by lia; rewrite N.mul_0_l; apply N.le_0_l|].
    unfold bound in Hle. rewrite (Nat2N.inj_succ n) at 2. rewrite N.pow_succ_r by lia.
    apply (N.mul_le_mono_r _ _ (2 ^ 512)) in Hle. etransitivity; [exact Hle|]. apply N.eq_le_incl.
    generalize (N.of_nat (S n)) (N.of_nat k) per_scalar ((2 ^ 512) ^ N.of_nat n). generalize (2 ^ 512). intros. ring.
  - right. exists q, runs. split.
    + destruct runs as [|[xi o] runs]; [discriminate|]. destruct (H3 xi o (or_introl eq_refl)) as (a & rest & _ & _ & _ & Hn & _).
      apply nth_error_In in Hn. pose proof (play_questions F g HF (prefix ++ a :: rest)) as Hq. rewrite Forall_forall in Hq. exact (Hq _ Hn).
    + split; [exact H1|]. split; [exact H2|]. exists prefix. exact H3.
Qed.
End Bound.

Lemma per_scalar_le : (per_scalar * 2 ^ 252 <= 2 ^ 512)%N.
Proof. vm_compute. discriminate. Qed.
Lemma many_answers (xs : list scalar) : NoDup xs -> exists l, NoDup l /\ (forall a, In a l -> length a = 64%nat /\ In (scalar_from_wide a) xs) /\
  (N.of_nat (length xs) * (2 ^ 512 / order) <= N.of_nat (length l))%N.
Proof.
  intros Hnd. induction Hnd as [|x xs Hx Hnd (l & N1 & H1 & H2)]; [exists []; split; [constructor|split; [intros a []|cbn; lia]]|].
  destruct (card_list _ _ (card_wide x)) as (l' & N2 & Hlen & H3). exists (l' ++ l). split; [|split].
  - assert (Hd : forall a, In a l' -> ~ In a l).
    { intros a Ha Hb. apply H3 in Ha. apply H1 in Hb. destruct Ha as [_ <-]. destruct Hb as [_ Hb]. exact (Hx Hb). }
    clear - N1 N2 Hd. induction N2 as [|a l' Ha N2 IH]; [exact N1|]. cbn [app]. constructor.
    + intros Hc. apply in_app_or in Hc. destruct Hc as [Hc|Hc]; [exact (Ha Hc)|exact (Hd a (or_introl eq_refl) Hc)].
    + apply IH. intros b Hb. apply Hd. right. exact Hb.
  - intros a Ha. apply in_app_or in Ha. destruct Ha as [Ha|Ha]; [apply H3 in Ha; destruct Ha as [Hl <-]; split; [exact Hl|left; reflexivity]|].
    destruct (H1 a Ha) as [Hl Hi]. split; [exact Hl|right; exact Hi].
  - rewrite app_length. cbn [length]. revert H2 Hlen. unfold share. generalize (2 ^ 512 / order)%N. intros d H2 Hlen. destruct (_ <? _)%N; lia.
Qed.
