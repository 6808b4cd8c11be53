(** Unambiguity of labelled transcripts. *)
From Verif Require Export Algebra.

Definition has_label (lab : bytes) (o : transcript_op) : Prop := exists msg, o = TAppend lab msg.
Definition starts_other (lab : bytes) (l : transcript) : Prop := match l with [] => True | o :: _ => ~ has_label lab o end.

Lemma labelled_inj (lab : bytes) {A} (enc : A -> bytes) (Henc : forall x y, enc x = enc y -> x = y) : forall xs xs' r r',
  map (fun x => TAppend lab (enc x)) xs ++ r = map (fun x => TAppend lab (enc x)) xs' ++ r' ->
  starts_other lab r -> starts_other lab r' -> xs = xs' /\ r = r'.
Proof.
  induction xs as [|x xs IH]; intros [|x' xs'] r r' H Hr Hr'; cbn [map app] in H.
  - split; [reflexivity|exact H].
  - subst r. elim Hr. eexists; reflexivity.
  - subst r'. elim Hr'. eexists; reflexivity.
  - injection H as Hx H. apply Henc in Hx. destruct (IH _ _ _ H Hr Hr') as [-> ->]. split; [congruence|reflexivity].
Qed.

Lemma labelled_tail_inj (lab : bytes) {A} (enc : A -> bytes) (Henc : forall x y, enc x = enc y -> x = y) t t' xs xs' :
  t ++ map (fun x => TAppend lab (enc x)) xs = t' ++ map (fun x => TAppend lab (enc x)) xs' ->
  starts_other lab (rev t) -> starts_other lab (rev t') -> t = t' /\ xs = xs'.
Proof.
  intros H Ht Ht'. apply (f_equal (@rev _)) in H. rewrite !rev_app_distr, <- !map_rev in H.
  destruct (labelled_inj lab enc Henc _ _ _ _ H Ht Ht') as [H1 H2].
  apply (f_equal (@rev _)) in H1, H2. rewrite !rev_involutive in H1, H2. split; assumption.
Qed.

Lemma compress_inj {E : env} (L : env_laws E) (P Q : pt E) : compress E P = compress E Q -> P = Q.
Proof.
  intros H. pose proof (decompress_compress E L P) as HP. rewrite H, (decompress_compress E L) in HP. congruence.
Qed.

Lemma snoc_inj (t t' : transcript) lab msg msg' : t ++ [TAppend lab msg] = t' ++ [TAppend lab msg'] -> t = t' /\ msg = msg'.
Proof. intros H. apply app_inj_tail in H. destruct H as [-> H]. split; [reflexivity|congruence]. Qed.

(** The last operation of a transcript does not carry a label. *)
Lemma starts_other_snoc lab t lab' msg : lab' <> lab -> starts_other lab (rev (t ++ [TAppend lab' msg])).
Proof. intros H. rewrite rev_app_distr. cbn. intros (m & Hm). congruence. Qed.
Lemma starts_other_challenge lab t lab' k : starts_other lab (rev (t ++ [TChallenge lab' k])).
Proof. rewrite rev_app_distr. cbn. intros (m & Hm). discriminate. Qed.
Lemma starts_other_map lab t lab' {A} (enc : A -> bytes) xs : lab' <> lab -> starts_other lab (rev t) ->
  starts_other lab (rev (t ++ map (fun x => TAppend lab' (enc x)) xs)).
Proof.
  intros H Ht. rewrite rev_app_distr, <- map_rev. destruct (rev xs) as [|x l]; [exact Ht|]. cbn. intros (m & Hm). congruence.
Qed.

Lemma le4_u32_inj x y : (x < 2 ^ 32)%N -> (y < 2 ^ 32)%N -> le_bytes 4 x = le_bytes 4 y -> x = y.
Proof. intros Hx Hy H. apply (le_bytes_inj 4); assumption. Qed.
