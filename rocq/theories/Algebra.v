(** Algebra used by the proofs: rings of scalars, the group as a module over them, linear
    combinations, polynomials by coefficient lists. *)
From Coq Require Export Ring Field.
From Verif Require Export Env Spec.

Add Ring scalar_ring : scalar_ring_theory.
Add Field scalar_field : scalar_field_theory.

#[global] Opaque smk s0 s1 sadd smul ssub sopp sinv sdiv seqb.

Declare Scope pt_scope.
Delimit Scope pt_scope with pt.

(** * Module equations by reflection *)
Section Module.
Context {E : env} (L : env_laws E).

Inductive gexp :=
| GVar (i : nat)
| GId
| GAdd (a b : gexp)
| GOpp (a : gexp)
| GSub (a b : gexp)
| GMul (s : scalar) (a : gexp).

Fixpoint gden (v : list (pt E)) (e : gexp) : pt E :=
  match e with
  | GVar i => nth i v (pid E)
  | GId => pid E
  | GAdd a b => padd E (gden v a) (gden v b)
  | GOpp a => popp E (gden v a)
  | GSub a b => psub (gden v a) (gden v b)
  | GMul s a => pmul E s (gden v a)
  end.

Fixpoint gcoef (i : nat) (e : gexp) : scalar :=
  match e with
  | GVar j => if Nat.eqb j i then s1 else s0
  | GId => s0
  | GAdd a b => (gcoef i a + gcoef i b)%sc
  | GOpp a => (- gcoef i a)%sc
  | GSub a b => (gcoef i a - gcoef i b)%sc
  | GMul s a => (s * gcoef i a)%sc
  end.

Fixpoint gcomb (i : nat) (v : list (pt E)) (e : gexp) : pt E :=
  match v with
  | [] => pid E
  | P :: v' => padd E (pmul E (gcoef i e) P) (gcomb (S i) v' e)
  end.

Lemma padd_0_r p : padd E p (pid E) = p.
Proof. rewrite (padd_comm E L). apply (padd_0_l E L). Qed.
Lemma padd_opp_l p : padd E (popp E p) p = pid E.
Proof. rewrite (padd_comm E L). apply (padd_opp_r E L). Qed.
Lemma padd_cancel_l p q r : padd E p q = padd E p r -> q = r.
Proof.
  intros H. rewrite <- (padd_0_l E L q), <- (padd_0_l E L r).
  rewrite <- (padd_opp_l p), <- !(padd_assoc E L), H. reflexivity.
Qed.
Lemma pmul_0_l p : pmul E s0 p = pid E.
Proof.
  apply (padd_cancel_l (pmul E s0 p)). rewrite <- (pmul_add_l E L), padd_0_r. f_equal; ring.
Qed.
Lemma pmul_0_r s : pmul E s (pid E) = pid E.
Proof.
  apply (padd_cancel_l (pmul E s (pid E))). rewrite <- (pmul_add_r E L), padd_0_r, padd_0_r. reflexivity.
Qed.
Lemma popp_unique p q : padd E p q = pid E -> popp E p = q.
Proof.
  intros H. apply (padd_cancel_l p). rewrite (padd_opp_r E L). symmetry. exact H.
Qed.
Lemma pmul_opp_l s p : pmul E (- s)%sc p = popp E (pmul E s p).
Proof.
  symmetry. apply popp_unique. rewrite <- (pmul_add_l E L). replace (s + - s)%sc with s0 by ring. apply pmul_0_l.
Qed.
Lemma popp_add p q : popp E (padd E p q) = padd E (popp E p) (popp E q).
Proof.
  apply popp_unique.
  rewrite (padd_comm E L (popp E p)), (padd_assoc E L), <- (padd_assoc E L p q), (padd_opp_r E L q), padd_0_r.
  apply (padd_opp_r E L).
Qed.
Lemma popp_id : popp E (pid E) = pid E.
Proof. apply popp_unique. apply (padd_0_l E L). Qed.

Lemma padd_swap a b c d : padd E (padd E a b) (padd E c d) = padd E (padd E a c) (padd E b d).
Proof.
  rewrite <- !(padd_assoc E L). f_equal. rewrite !(padd_assoc E L). f_equal. apply (padd_comm E L).
Qed.

Lemma gcomb_add i v a b : gcomb i v (GAdd a b) = padd E (gcomb i v a) (gcomb i v b).
Proof.
  revert i; induction v as [|P v IH]; intros i; cbn [gcomb]; [symmetry; apply padd_0_r|].
  rewrite IH. cbn [gcoef]. rewrite (pmul_add_l E L). apply padd_swap.
Qed.
Lemma gcomb_opp i v a : gcomb i v (GOpp a) = popp E (gcomb i v a).
Proof.
  revert i; induction v as [|P v IH]; intros i; cbn [gcomb]; [symmetry; apply popp_id|].
  rewrite IH. cbn [gcoef]. rewrite pmul_opp_l, popp_add. reflexivity.
Qed.
Lemma gcomb_sub i v a b : gcomb i v (GSub a b) = psub (gcomb i v a) (gcomb i v b).
Proof.
  unfold psub. rewrite <- gcomb_opp, <- gcomb_add.
  revert i; induction v as [|P v IH]; intros i; cbn [gcomb]; [reflexivity|].
  rewrite IH. cbn [gcoef]. f_equal. f_equal. ring.
Qed.
Lemma gcomb_mul i v s a : gcomb i v (GMul s a) = pmul E s (gcomb i v a).
Proof.
  revert i; induction v as [|P v IH]; intros i; cbn [gcomb]; [symmetry; apply pmul_0_r|].
  rewrite IH. cbn [gcoef]. rewrite (pmul_add_r E L), (pmul_assoc E L). reflexivity.
Qed.
Lemma gcomb_id i v : gcomb i v GId = pid E.
Proof.
  revert i; induction v as [|P v IH]; intros i; cbn [gcomb]; [reflexivity|].
  rewrite IH. cbn [gcoef]. rewrite pmul_0_l. apply padd_0_r.
Qed.
Lemma gcomb_var_lt i v j : (j < i)%nat -> gcomb i v (GVar j) = pid E.
Proof.
  revert i; induction v as [|P v IH]; intros i H; cbn [gcomb]; [reflexivity|].
  rewrite IH by lia. cbn [gcoef]. rewrite (proj2 (Nat.eqb_neq j i)) by lia. rewrite pmul_0_l. apply padd_0_r.
Qed.
Lemma gcomb_var i v j : gcomb i v (GVar (i + j)) = nth j v (pid E).
Proof.
  revert i j; induction v as [|P v IH]; intros i j; cbn [gcomb]; [destruct j; reflexivity|].
  destruct j as [|j].
  - rewrite Nat.add_0_r. rewrite gcomb_var_lt by lia. cbn [gcoef]. rewrite Nat.eqb_refl, (pmul_1_l E L). apply padd_0_r.
  - cbn [gcoef]. rewrite (proj2 (Nat.eqb_neq _ i)) by lia. rewrite pmul_0_l, (padd_0_l E L).
    replace (i + S j)%nat with (S i + j)%nat by lia. apply IH.
Qed.

Lemma gden_gcomb v e : gden v e = gcomb 0 v e.
Proof.
  induction e as [i| |a IHa b IHb|a IHa|a IHa b IHb|s a IHa]; cbn [gden].
  - symmetry. apply (gcomb_var 0 v i).
  - symmetry. apply gcomb_id.
  - rewrite IHa, IHb. symmetry. apply gcomb_add.
  - rewrite IHa. symmetry. apply gcomb_opp.
  - rewrite IHa, IHb. symmetry. apply gcomb_sub.
  - rewrite IHa. symmetry. apply gcomb_mul.
Qed.

Fixpoint gcheck (i : nat) (v : list (pt E)) (a b : gexp) : Prop :=
  match v with
  | [] => True
  | [_] => gcoef i a = gcoef i b
  | _ :: v' => gcoef i a = gcoef i b /\ gcheck (S i) v' a b
  end.

Lemma gcheck_sound v a b : gcheck 0 v a b -> gden v a = gden v b.
Proof.
  rewrite !gden_gcomb. generalize 0%nat. induction v as [|P v IH]; intros i H; cbn [gcomb]; [reflexivity|].
  destruct v as [|Q v].
  - cbn [gcheck] in H. rewrite H. reflexivity.
  - cbn [gcheck] in H. destruct H as [H1 H2]. rewrite H1. f_equal. apply IH. exact H2.
Qed.

End Module.
Arguments gden {E} _ _.
Arguments gcheck {E} _ _ _ _.

Ltac g_mem x l :=
  lazymatch l with
  | nil => constr:(false)
  | cons ?y ?l' => match constr:(Set) with
                   | _ => let _ := match constr:(Set) with _ => constr_eq x y end in constr:(true)
                   | _ => g_mem x l'
                   end
  end.
Ltac g_idx x l :=
  lazymatch l with
  | cons ?y ?l' => match constr:(Set) with
                   | _ => let _ := match constr:(Set) with _ => constr_eq x y end in constr:(O)
                   | _ => let i := g_idx x l' in constr:(S i)
                   end
  end.
Ltac g_atoms e l :=
  lazymatch e with
  | padd _ ?a ?b => let l := g_atoms a l in g_atoms b l
  | psub ?a ?b => let l := g_atoms a l in g_atoms b l
  | popp _ ?a => g_atoms a l
  | pmul _ ?s ?a => g_atoms a l
  | pid _ => l
  | ?x => let b := g_mem x l in
          lazymatch b with
          | true => l
          | false => constr:(cons x l)
          end
  end.
Ltac g_reify e l :=
  lazymatch e with
  | padd _ ?a ?b => let a := g_reify a l in let b := g_reify b l in constr:(GAdd a b)
  | psub ?a ?b => let a := g_reify a l in let b := g_reify b l in constr:(GSub a b)
  | popp _ ?a => let a := g_reify a l in constr:(GOpp a)
  | pmul _ ?s ?a => let a := g_reify a l in constr:(GMul s a)
  | pid _ => constr:(GId)
  | ?x => let i := g_idx x l in constr:(GVar i)
  end.

(** [module L] proves an equation between group expressions when the coefficients of every atom agree up to
    [ring] (or [field] side conditions left as goals). *)
Ltac module_prep L :=
  match goal with
  | |- ?a = ?b =>
      let T := type of a in
      let l := g_atoms a (@nil T) in
      let l := g_atoms b l in
      let ea := g_reify a l in
      let eb := g_reify b l in
      change (gden l ea = gden l eb);
      apply (gcheck_sound L);
      cbn [gcheck gcoef Nat.eqb]
  end.
Ltac module L := module_prep L; repeat split; try ring.

Section Group.
Context {E : env} (L : env_laws E).

Lemma module_test (a b : scalar) (P Q : pt E) :
  padd E (pmul E a (padd E P Q)) (pmul E b P) = padd E (pmul E (a + b)%sc P) (psub (pmul E a Q) (pid E)).
Proof. module L. Qed.

Lemma psub_0 p q : psub p q = pid E <-> p = q.
Proof.
  split; intros H.
  - replace p with (padd E (psub p q) q) by (module L). rewrite H. apply (padd_0_l E L).
  - subst q. module L.
Qed.

Lemma pmul_eq_0 s p : pmul E s p = pid E -> s <> s0 -> p = pid E.
Proof.
  intros H Hs. rewrite <- (pmul_1_l E L p). rewrite <- (sinv_l s Hs), <- (pmul_assoc E L), H.
  apply (pmul_0_r L).
Qed.

Lemma pmul_inj_l s t p : p <> pid E -> pmul E s p = pmul E t p -> s = t.
Proof.
  intros Hp H. destruct (scalar_eq_dec s t) as [|Hne]; [assumption|]. exfalso. apply Hp.
  apply (pmul_eq_0 (s - t)%sc).
  - replace (pmul E (s - t)%sc p) with (psub (pmul E s p) (pmul E t p)) by (module L).
    apply psub_0. exact H.
  - intros H0. apply Hne. replace s with ((s - t) + t)%sc by ring. rewrite H0. ring.
Qed.

(** * Linear combinations *)

Lemma lincomb_nil_l ps : @lincomb E [] ps = pid E.
Proof. reflexivity. Qed.
Lemma lincomb_nil_r ss : @lincomb E ss [] = pid E.
Proof. unfold lincomb. destruct ss; reflexivity. Qed.
Lemma lincomb_cons s ss p ps : @lincomb E (s :: ss) (p :: ps) = padd E (pmul E s p) (lincomb ss ps).
Proof. reflexivity. Qed.

Lemma lincomb_app ss1 ss2 ps1 ps2 : length ss1 = length ps1 ->
  @lincomb E (ss1 ++ ss2) (ps1 ++ ps2) = padd E (lincomb ss1 ps1) (lincomb ss2 ps2).
Proof.
  revert ps1; induction ss1 as [|s ss1 IH]; intros ps1 Hl; destruct ps1 as [|p ps1]; try discriminate.
  - cbn [app]. rewrite lincomb_nil_l. symmetry. apply (padd_0_l E L).
  - cbn [app]. rewrite !lincomb_cons, IH by (simpl in Hl; lia). apply (padd_assoc E L).
Qed.

Lemma lincomb_scale w ss ps : @lincomb E (map (fun s => w * s)%sc ss) ps = pmul E w (lincomb ss ps).
Proof.
  revert ps; induction ss as [|s ss IH]; intros ps; [symmetry; apply (pmul_0_r L)|].
  destruct ps as [|p ps]; [rewrite !lincomb_nil_r; symmetry; apply (pmul_0_r L)|].
  cbn [map]. rewrite !lincomb_cons, IH. module L.
Qed.

Lemma lincomb_add {A} (f g : A -> scalar) l ps :
  @lincomb E (map (fun x => f x + g x)%sc l) ps = padd E (lincomb (map f l) ps) (lincomb (map g l) ps).
Proof.
  revert ps; induction l as [|x l IH]; intros ps; [symmetry; apply (padd_0_l E L)|].
  destruct ps as [|p ps]; [rewrite !lincomb_nil_r; symmetry; apply (padd_0_l E L)|].
  cbn [map]. rewrite !lincomb_cons, IH. module L.
Qed.

Lemma lincomb_scale_r {A} (f : A -> scalar) w l ps :
  @lincomb E (map (fun x => w * f x)%sc l) ps = pmul E w (lincomb (map f l) ps).
Proof. rewrite <- lincomb_scale, map_map. reflexivity. Qed.

Lemma lincomb_zeros k ps : @lincomb E (repeat s0 k) ps = pid E.
Proof.
  revert ps; induction k as [|k IH]; intros ps; [reflexivity|].
  destruct ps as [|p ps]; [reflexivity|]. cbn [repeat]. rewrite lincomb_cons, IH. module L.
Qed.

Lemma lincomb_ext {A} (f g : A -> scalar) l ps : (forall x, In x l -> f x = g x) ->
  @lincomb E (map f l) ps = lincomb (map g l) ps.
Proof. intros H. f_equal. apply map_ext_in. exact H. Qed.

Lemma lincomb_single s p : @lincomb E [s] [p] = pmul E s p.
Proof. rewrite lincomb_cons, lincomb_nil_l. module L. Qed.

Lemma lincomb_delta : forall (M : list (pt E)) l, (l < length M)%nat ->
  lincomb (map (fun k => if Nat.eqb k l then s1 else s0) (seq 0 (length M))) M = nth l M (pid E).
Proof.
  assert (Hz : forall (M : list (pt E)) a l, (l < a)%nat ->
    lincomb (map (fun k => if Nat.eqb k l then s1 else s0) (seq a (length M))) M = pid E).
  { induction M as [|P M IH]; intros a l Hl; [reflexivity|]. cbn [length seq map]. rewrite lincomb_cons, IH by lia.
    rewrite (proj2 (Nat.eqb_neq a l)) by lia. module L. }
  assert (H : forall (M : list (pt E)) a l, (l < length M)%nat ->
    lincomb (map (fun k => if Nat.eqb k (a + l) then s1 else s0) (seq a (length M))) M = nth l M (pid E)).
  { induction M as [|P M IH]; intros a l Hl; [simpl in Hl; lia|]. cbn [length seq map]. rewrite lincomb_cons.
    destruct l as [|l].
    - rewrite Nat.add_0_r, Nat.eqb_refl, Hz by lia. cbn [nth]. module L.
    - replace (a + S l)%nat with (S a + l)%nat by lia. rewrite IH by (simpl in Hl; lia).
      rewrite (proj2 (Nat.eqb_neq a (S a + l))) by lia. cbn [nth]. module L. }
  intros M l Hl. exact (H M 0%nat l Hl).
Qed.

(** Sums of points: see [Spec.psum]. *)

Lemma psum_app a b : psum (a ++ b) = padd E (psum a) (psum b).
Proof.
  induction a as [|x a IH]; cbn [app psum fold_right]; [symmetry; apply (padd_0_l E L)|].
  fold (psum (a ++ b)). fold (psum a). rewrite IH. apply (padd_assoc E L).
Qed.

(** A difference of vectors. *)
Definition vsub (a b : list scalar) : list scalar := map (fun xy => fst xy - snd xy)%sc (combine a b).

Lemma lincomb_vsub a b ps : length a = length b ->
  @lincomb E (vsub a b) ps = psub (lincomb a ps) (lincomb b ps).
Proof.
  revert b ps; induction a as [|x a IH]; intros b ps Hl; destruct b as [|y b]; try discriminate.
  - unfold vsub. cbn [combine map]. rewrite !lincomb_nil_l. module L.
  - unfold vsub. cbn [combine map fst snd]. fold (vsub a b).
    destruct ps as [|p ps]; [rewrite !lincomb_nil_r; module L|].
    rewrite !lincomb_cons, IH by (simpl in Hl; lia). module L.
Qed.

Lemma vsub_zero_eq a b : length a = length b -> Forall (fun x => x = s0) (vsub a b) -> a = b.
Proof.
  revert b; induction a as [|x a IH]; intros b Hl H; destruct b as [|y b]; try discriminate; [reflexivity|].
  unfold vsub in H. cbn [combine map fst snd] in H. inversion H as [|z l Hz Hr Heq]; subst.
  f_equal; [|apply IH; [simpl in Hl; lia|exact Hr]].
  replace x with ((x - y) + y)%sc by ring. rewrite Hz. ring.
Qed.

Lemma vsub_length a b : length a = length b -> length (vsub a b) = length a.
Proof. intros H. unfold vsub. rewrite map_length, combine_length. lia. Qed.

End Group.

(** * Scalars *)

Lemma ssum_nil : ssum [] = s0.
Proof. reflexivity. Qed.
Lemma sprod_nil : sprod [] = s1.
Proof. reflexivity. Qed.
Lemma ssum_cons x l : ssum (x :: l) = (x + ssum l)%sc.
Proof. reflexivity. Qed.
Lemma sprod_cons x l : sprod (x :: l) = (x * sprod l)%sc.
Proof. reflexivity. Qed.
Lemma ssum_app a b : ssum (a ++ b) = (ssum a + ssum b)%sc.
Proof. induction a as [|x a IH]; cbn [app]; [rewrite ssum_nil; ring|]. rewrite !ssum_cons, IH. ring. Qed.
Lemma sprod_app a b : sprod (a ++ b) = (sprod a * sprod b)%sc.
Proof. induction a as [|x a IH]; cbn [app]; [rewrite sprod_nil; ring|]. rewrite !sprod_cons, IH. ring. Qed.
Lemma ssum_scale w l : ssum (map (fun x => w * x)%sc l) = (w * ssum l)%sc.
Proof. induction l as [|x l IH]; cbn [map]; [rewrite !ssum_nil; ring|]. rewrite !ssum_cons, IH. ring. Qed.
Lemma ssum_scale_f {A} (f : A -> scalar) w l : ssum (map (fun x => w * f x)%sc l) = (w * ssum (map f l))%sc.
Proof. rewrite <- ssum_scale, map_map. reflexivity. Qed.
Lemma ssum_scale_f_r {A} (f : A -> scalar) w l : ssum (map (fun x => f x * w)%sc l) = (ssum (map f l) * w)%sc.
Proof. induction l as [|x l IH]; cbn [map]; [rewrite !ssum_nil; ring|]. rewrite !ssum_cons, IH. ring. Qed.
Lemma ssum_add_f {A} (f g : A -> scalar) l : ssum (map (fun x => f x + g x)%sc l) = (ssum (map f l) + ssum (map g l))%sc.
Proof. induction l as [|x l IH]; cbn [map]; [rewrite !ssum_nil; ring|]. rewrite !ssum_cons, IH. ring. Qed.
Lemma ssum_zero {A} (l : list A) : ssum (map (fun _ => s0) l) = s0.
Proof. induction l as [|x l IH]; [reflexivity|]. cbn [map]. rewrite ssum_cons, IH. ring. Qed.
Lemma ssum_ext {A} (f g : A -> scalar) l : (forall x, In x l -> f x = g x) -> ssum (map f l) = ssum (map g l).
Proof. intros H. f_equal. apply map_ext_in. exact H. Qed.
Lemma sprod_ext {A} (f g : A -> scalar) l : (forall x, In x l -> f x = g x) -> sprod (map f l) = sprod (map g l).
Proof. intros H. f_equal. apply map_ext_in. exact H. Qed.

Lemma ssum_delta {A} (eqd : A -> A -> bool) (Heq : forall x y, eqd x y = true <-> x = y) (v : scalar) l x0 :
  NoDup l -> In x0 l -> ssum (map (fun x => if eqd x x0 then v else s0) l) = v.
Proof.
  induction l as [|x l IH]; intros Hnd Hin; [destruct Hin|].
  inversion Hnd as [|y l' Hni Hnd' Heqy]; subst. cbn [map]. rewrite ssum_cons.
  destruct Hin as [->|Hin].
  - rewrite (proj2 (Heq x0 x0) eq_refl).
    rewrite (ssum_ext _ (fun _ => s0)); [rewrite ssum_zero; ring|].
    intros y Hy. destruct (eqd y x0) eqn:Ey; [|reflexivity]. apply Heq in Ey. subst. contradiction.
  - destruct (eqd x x0) eqn:Ex; [apply Heq in Ex; subst; contradiction|]. rewrite IH by assumption. ring.
Qed.

Lemma smul_eq_0 a b : (a * b)%sc = s0 -> a = s0 \/ b = s0.
Proof.
  intros H. destruct (scalar_eq_dec a s0) as [|Ha]; [left; assumption|right].
  replace b with ((sinv a * a) * b)%sc.
  - replace ((sinv a * a) * b)%sc with (sinv a * (a * b))%sc by ring. rewrite H. ring.
  - rewrite sinv_l by exact Ha. ring.
Qed.

Lemma ssub_eq_0 a b : (a - b)%sc = s0 <-> a = b.
Proof. split; intros H; [replace a with ((a - b) + b)%sc by ring; rewrite H; ring|subst; ring]. Qed.

Lemma spow_nonzero x k : x <> s0 -> spow x k <> s0.
Proof.
  intros Hx. induction k as [|k IH]; [apply s1_neq_s0|].
  cbn [spow]. intros H. apply smul_eq_0 in H. tauto.
Qed.

Lemma sprod_nonzero l : Forall (fun x => x <> s0) l -> sprod l <> s0.
Proof.
  induction 1 as [|x l Hx Hl IH]; [apply s1_neq_s0|]. rewrite sprod_cons. intros H. apply smul_eq_0 in H. tauto.
Qed.

(** Polynomials as coefficient lists, lowest degree first. *)
Fixpoint peval (c : list scalar) (x : scalar) : scalar :=
  match c with [] => s0 | a :: c' => (a + x * peval c' x)%sc end.

Lemma peval_app c d x : peval (c ++ d) x = (peval c x + spow x (length c) * peval d x)%sc.
Proof. induction c as [|a c IH]; cbn [app peval length spow]; [ring|]. rewrite IH. ring. Qed.
Lemma peval_zeros k x : peval (repeat s0 k) x = s0.
Proof. induction k as [|k IH]; [reflexivity|]. cbn [repeat peval]. rewrite IH. ring. Qed.
Lemma peval_scale a c x : peval (map (fun y => a * y)%sc c) x = (a * peval c x)%sc.
Proof. induction c as [|b c IH]; cbn [map peval]; [ring|]. rewrite IH. ring. Qed.

Lemma powers_S x k : powers x (S k) = s1 :: map (fun y => x * y)%sc (powers x k).
Proof. unfold powers. cbn [seq map]. rewrite <- seq_shift, !map_map. reflexivity. Qed.

Lemma powers_length x k : length (powers x k) = k.
Proof. unfold powers. rewrite map_length, seq_length. reflexivity. Qed.

Lemma powers_nth x k j : (j < k)%nat -> nth_error (powers x k) j = Some (spow x j).
Proof.
  intros H. unfold powers. apply map_nth_error.
  rewrite (nth_error_nth' _ 0%nat) by (rewrite seq_length; exact H).
  rewrite seq_nth by exact H. reflexivity.
Qed.

Lemma sdot_cons x a y b : sdot (x :: a) (y :: b) = (x * y + sdot a b)%sc.
Proof. reflexivity. Qed.
Lemma sdot_scale_r w : forall a b, sdot a (map (fun y => w * y)%sc b) = (w * sdot a b)%sc.
Proof.
  induction a as [|x a IH]; intros b; [unfold sdot; cbn [combine map]; rewrite ssum_nil; ring|]. destruct b as [|y b]; [unfold sdot; cbn [combine map]; rewrite ssum_nil; ring|].
  cbn [map]. rewrite !sdot_cons, IH. ring.
Qed.

Lemma sdot_powers c x k : length c = k -> sdot c (powers x k) = peval c x.
Proof.
  revert k; induction c as [|a c IH]; intros k Hl; destruct k as [|k]; try discriminate; [reflexivity|].
  rewrite powers_S, sdot_cons, sdot_scale_r, (IH k) by (simpl in Hl; lia). cbn [peval]. ring.
Qed.

Lemma scomb_sum_swap {A B} (f : A -> B -> scalar) la lb :
  ssum (map (fun a => ssum (map (fun b => f a b) lb)) la) = ssum (map (fun b => ssum (map (fun a => f a b) la)) lb).
Proof.
  induction la as [|a la IH]; cbn [map]; [rewrite !ssum_nil, ssum_zero; reflexivity|].
  rewrite ssum_cons, IH, <- ssum_add_f. reflexivity.
Qed.
