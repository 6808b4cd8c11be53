(** Property C52: the two protocols never ask the random oracle the same question.

    This file, like [Properties_Cross.v] and [Properties_CrossSerde.v], imports the plain and the parallel model together; the names of
    the latter are qualified. *)
From Verif Require Import SpecPlain.
From Verif Require ParSpec Binding ParBinding.
From Verif Require Import ToyEnv.

(** ** The questions.  A question to Merlin is a transcript, a label and a length. *)
Definition question : Type := transcript * bytes * nat.

Inductive kind := KParams | KInputSet | KStatement | KChallenge.

Section Questions.
Context {E : env}.

(** Questions asked by the plain protocol for hashes and challenges.  The caller's transcript [t] is arbitrary. *)
Inductive plain_asks : kind -> question -> Prop :=
| plain_params n m G U CG CH : plain_asks KParams (params_query (E := E) n m G U CG CH, b_ "hash", 32%nat)
| plain_input_set M k : plain_asks KInputSet (input_set_query (E := E) M k, b_ "hash", 32%nat)
| plain_statement h1 h2 J : plain_asks KStatement (statement_query (E := E) h1 h2 J, b_ "hash", 32%nat)
| plain_challenge t (st : statement E) (pf : proof E) : plain_asks KChallenge (fs_transcript t st pf, b_ "xi", 64%nat).

(** Questions asked by the parallel protocol. *)
Inductive parallel_asks : kind -> question -> Prop :=
| parallel_params n m G G1 U CG CH : parallel_asks KParams (ParSpec.params_query (E := E) n m G G1 U CG CH, b_ "hash", 32%nat)
| parallel_input_set M M1 k : parallel_asks KInputSet (ParSpec.input_set_query (E := E) M M1 k, b_ "hash", 32%nat)
| parallel_statement h1 h2 offset J : parallel_asks KStatement (ParSpec.statement_query (E := E) h1 h2 offset J, b_ "hash", 32%nat)
| parallel_challenge t (st : ParStatement.statement E) (pf : ParProver.proof E) :
    parallel_asks KChallenge (ParSpec.fs_transcript t st pf, b_ "xi", 64%nat).

(** Transcript generators: of nonces, of the tag of a proof, of the weights of a batch. *)
Inductive generator_kind := GNonces | GTag | GWeights.
Inductive plain_uses : generator_kind -> trng -> Prop :=
| plain_nonces t (st : statement E) w seed used :
    plain_uses GNonces (mk_trng (tr_base (prover_rng t st w seed)) (tr_keys (prover_rng t st w seed)) seed used)
| plain_tag t (st : statement E) (pf : proof E) used : plain_uses GTag (mk_trng (verifier_transcript t st pf) [] (repeat x00 32) used)
| plain_weights (sts : list (statement E)) pfs ts used :
    plain_uses GWeights (mk_trng (tr_base (weight_rng sts pfs ts)) [] (repeat x00 32) used).
Inductive parallel_uses : generator_kind -> trng -> Prop :=
| parallel_nonces t (st : ParStatement.statement E) w seed used :
    parallel_uses GNonces (mk_trng (tr_base (ParSpec.prover_rng t st w seed)) (tr_keys (ParSpec.prover_rng t st w seed)) seed used)
| parallel_tag t (st : ParStatement.statement E) (pf : ParProver.proof E) used :
    parallel_uses GTag (mk_trng (ParSpec.verifier_transcript t st pf) [] (repeat x00 32) used)
| parallel_weights (sts : list (ParStatement.statement E)) pfs ts used :
    parallel_uses GWeights (mk_trng (tr_base (ParSpec.weight_rng sts pfs ts)) [] (repeat x00 32) used).

(** ** The last domain separator of a transcript *)
Definition is_domain (o : transcript_op) : bool :=
  match o with TAppend lab _ => bytes_eqb lab (b_ "dom-sep") | TChallenge _ _ => false end.
Definition last_domain (t : transcript) : option transcript_op := find is_domain (rev t).

Lemma find_app {A} (f : A -> bool) l k : find f (l ++ k) = match find f l with Some x => Some x | None => find f k end.
Proof. induction l as [|x l IH]; [reflexivity|]. cbn. destruct (f x); [reflexivity|exact IH]. Qed.
Lemma find_none_forall {A} (f : A -> bool) l : (forall x, In x l -> f x = false) -> find f l = None.
Proof. induction l as [|x l IH]; intros H; [reflexivity|]. cbn. rewrite (H x (or_introl eq_refl)). apply IH. intros y Hy. apply H. right. exact Hy. Qed.
Lemma last_domain_app t u : last_domain (t ++ u) = match last_domain u with Some x => Some x | None => last_domain t end.
Proof. unfold last_domain. rewrite rev_app_distr. apply find_app. Qed.
Lemma last_domain_map {A} lab (f : A -> bytes) l : bytes_eqb lab (b_ "dom-sep") = false -> last_domain (map (fun x => TAppend lab (f x)) l) = None.
Proof.
  intros H. apply find_none_forall. intros x Hx. apply in_rev in Hx. apply in_map_iff in Hx. destruct Hx as (y & <- & _). exact H.
Qed.
Lemma last_domain_cons o t : last_domain (o :: t) = match last_domain t with Some x => Some x | None => if is_domain o then Some o else None end.
Proof. change (o :: t) with ([o] ++ t). apply last_domain_app. Qed.
Lemma last_domain_nil : last_domain [] = None.
Proof. reflexivity. Qed.

Lemma is_domain_append lab msg : is_domain (TAppend lab msg) = bytes_eqb lab (b_ "dom-sep").
Proof. reflexivity. Qed.
Lemma is_domain_challenge lab k : is_domain (TChallenge lab k) = false.
Proof. reflexivity. Qed.

Ltac domains :=
  repeat (rewrite ?last_domain_app, ?last_domain_cons, ?last_domain_nil, ?last_domain_map by (vm_compute; reflexivity));
  rewrite ?is_domain_append, ?is_domain_challenge;
  repeat match goal with |- context [bytes_eqb (b_ ?x) (b_ "dom-sep")] =>
    let b := eval vm_compute in (bytes_eqb (b_ x) (b_ "dom-sep")) in change (bytes_eqb (b_ x) (b_ "dom-sep")) with b end;
  cbv iota; try reflexivity.

Lemma fs_domain t (st : statement E) pf : last_domain (fs_transcript t st pf) = Some (TAppend (b_ "dom-sep") (b_ "Triptych proof")).
Proof. unfold fs_transcript. domains. Qed.
Lemma par_fs_domain t (st : ParStatement.statement E) pf : last_domain (ParSpec.fs_transcript t st pf) = Some (TAppend (b_ "dom-sep") (b_ "Parallel Triptych proof")).
Proof. unfold ParSpec.fs_transcript. domains. Qed.
Lemma vt_domain t (st : statement E) pf : last_domain (verifier_transcript t st pf) = Some (TAppend (b_ "dom-sep") (b_ "Triptych proof")).
Proof. unfold verifier_transcript, prover_transcript. domains. apply fs_domain. Qed.
Lemma par_vt_domain t (st : ParStatement.statement E) pf : last_domain (ParSpec.verifier_transcript t st pf) = Some (TAppend (b_ "dom-sep") (b_ "Parallel Triptych proof")).
Proof. unfold ParSpec.verifier_transcript, ParSpec.prover_transcript. domains. apply par_fs_domain. Qed.
Lemma nonce_domain t (st : statement E) w seed : last_domain (tr_base (prover_rng t st w seed)) = Some (TAppend (b_ "dom-sep") (b_ "Triptych proof")).
Proof. unfold prover_rng. cbn [tr_base]. domains. Qed.
Lemma par_nonce_domain t (st : ParStatement.statement E) w seed : last_domain (tr_base (ParSpec.prover_rng t st w seed)) = Some (TAppend (b_ "dom-sep") (b_ "Parallel Triptych proof")).
Proof. unfold ParSpec.prover_rng. cbn [tr_base]. domains. Qed.
Lemma weight_domain (sts : list (statement E)) pfs ts : last_domain (tr_base (weight_rng sts pfs ts)) = Some (TAppend (b_ "dom-sep") (b_ "Triptych verifier weights")).
Proof.
  unfold weight_rng. cbn [tr_base]. rewrite last_domain_app.
  rewrite (last_domain_map (b_ "proof") (fun x => le_bytes 8 (proof_tag (snd x) (fst (fst x)) (snd (fst x))))) by (vm_compute; reflexivity).
  vm_compute. reflexivity.
Qed.
Lemma par_weight_domain (sts : list (ParStatement.statement E)) pfs ts : last_domain (tr_base (ParSpec.weight_rng sts pfs ts)) = Some (TAppend (b_ "dom-sep") (b_ "Parallel Triptych verifier weights")).
Proof.
  unfold ParSpec.weight_rng. cbn [tr_base]. rewrite last_domain_app.
  rewrite (last_domain_map (b_ "proof") (fun x => le_bytes 8 (ParSpec.proof_tag (snd x) (fst (fst x)) (snd (fst x))))) by (vm_compute; reflexivity).
  vm_compute. reflexivity.
Qed.
End Questions.

(** First element of a hash query, or last domain separator of a challenge query. *)
Definition domain_of (q : question) : option transcript_op :=
  let '(t, label, _) := q in if bytes_eqb label (b_ "xi") then last_domain t else nth_error t 0.

Lemma plain_domain {E : env} k q : plain_asks (E := E) k q ->
  domain_of q = Some (TAppend (b_ "dom-sep") (b_ (match k with KParams => "Triptych parameters" | KInputSet => "Triptych input set"
    | KStatement => "Triptych statement" | KChallenge => "Triptych proof" end))).
Proof.
  intros [n m G U CG CH|M j|h1 h2 J|t st pf]; unfold domain_of;
    change (bytes_eqb (b_ "hash") (b_ "xi")) with false; change (bytes_eqb (b_ "xi") (b_ "xi")) with true; cbv iota; try reflexivity.
  apply fs_domain.
Qed.
Lemma parallel_domain {E : env} k q : parallel_asks (E := E) k q ->
  domain_of q = Some (TAppend (b_ "dom-sep") (b_ (match k with KParams => "Parallel Triptych parameters" | KInputSet => "Parallel Triptych input set"
    | KStatement => "Parallel Triptych statement" | KChallenge => "Parallel Triptych proof" end))).
Proof.
  intros [n m G G1 U CG CH|M M1 j|h1 h2 o J|t st pf]; unfold domain_of;
    change (bytes_eqb (b_ "hash") (b_ "xi")) with false; change (bytes_eqb (b_ "xi") (b_ "xi")) with true; cbv iota; try reflexivity.
  apply par_fs_domain.
Qed.

(** ** C52: no question is asked by both protocols, whatever the callers' transcripts are; and neither protocol asks one question
    for two purposes. *)
Theorem C52_questions_disjoint :
  forall (E : env) (q : question) (k k' : kind),
    (plain_asks (E := E) k q -> ~ parallel_asks (E := E) k' q) /\
    (plain_asks (E := E) k q -> plain_asks (E := E) k' q -> k = k') /\
    (parallel_asks (E := E) k q -> parallel_asks (E := E) k' q -> k = k').
Proof.
  intros E q k k'. split; [|split]; intros H H'.
  - apply plain_domain in H. apply parallel_domain in H'. rewrite H in H'. destruct k, k'; vm_compute in H'; discriminate.
  - apply plain_domain in H, H'. rewrite H in H'. destruct k, k'; try reflexivity; vm_compute in H'; discriminate.
  - apply parallel_domain in H, H'. rewrite H in H'. destruct k, k'; try reflexivity; vm_compute in H'; discriminate.
Qed.
Print Assumptions C52_questions_disjoint.

(** The same for the generators: nonces and weights of one protocol are never those of the other, tags of proofs are never
    drawn from a generator of weights. *)
Theorem C52_generators_disjoint :
  forall (E : env) (g g' : trng) (k k' : generator_kind),
    (plain_uses (E := E) k g -> parallel_uses (E := E) k' g' -> tr_base g <> tr_base g') /\
    (plain_uses (E := E) k g -> plain_uses (E := E) k' g -> k = k') /\
    (parallel_uses (E := E) k g -> parallel_uses (E := E) k' g -> k = k').
Proof.
  intros E g g' k k'.
  assert (Hp : forall k g, plain_uses (E := E) k g ->
    last_domain (tr_base g) = Some (TAppend (b_ "dom-sep") (b_ (match k with GWeights => "Triptych verifier weights" | _ => "Triptych proof" end)))
    /\ (k = GNonces <-> tr_keys g <> [])).
  { intros k0 g0 [t st w seed used|t st pf used|sts pfs ts used]; cbn [tr_base tr_keys].
    - split; [apply nonce_domain|]. split; [intros _; unfold prover_rng; cbn [tr_keys]; discriminate|reflexivity].
    - split; [apply vt_domain|]. split; [discriminate|intros H; contradiction].
    - split; [apply weight_domain|]. split; [discriminate|intros H; contradiction]. }
  assert (Hq : forall k g, parallel_uses (E := E) k g ->
    last_domain (tr_base g) = Some (TAppend (b_ "dom-sep") (b_ (match k with GWeights => "Parallel Triptych verifier weights" | _ => "Parallel Triptych proof" end)))
    /\ (k = GNonces <-> tr_keys g <> [])).
  { intros k0 g0 [t st w seed used|t st pf used|sts pfs ts used]; cbn [tr_base tr_keys].
    - split; [apply par_nonce_domain|]. split; [intros _; unfold ParSpec.prover_rng; cbn [tr_keys]; discriminate|reflexivity].
    - split; [apply par_vt_domain|]. split; [discriminate|intros H; contradiction].
    - split; [apply par_weight_domain|]. split; [discriminate|intros H; contradiction]. }
  split; [|split]; intros H H'.
  - intros Hc. apply Hp in H. apply Hq in H'. destruct H as [H _], H' as [H' _]. rewrite Hc in H. rewrite H in H'.
    destruct k, k'; vm_compute in H'; discriminate.
  - apply Hp in H, H'. destruct H as [H Hk], H' as [H' Hk']. rewrite H in H'.
    destruct k, k'; try reflexivity; try (vm_compute in H'; discriminate); exfalso.
    + assert (Hx : tr_keys g <> []) by (apply Hk; reflexivity). apply Hk' in Hx. discriminate.
    + assert (Hx : tr_keys g <> []) by (apply Hk'; reflexivity). apply Hk in Hx. discriminate.
  - apply Hq in H, H'. destruct H as [H Hk], H' as [H' Hk']. rewrite H in H'.
    destruct k, k'; try reflexivity; try (vm_compute in H'; discriminate); exfalso.
    + assert (Hx : tr_keys g <> []) by (apply Hk; reflexivity). apply Hk' in Hx. discriminate.
    + assert (Hx : tr_keys g <> []) by (apply Hk'; reflexivity). apply Hk in Hx. discriminate.
Qed.
Print Assumptions C52_generators_disjoint.

(** The questions are those the code asks: every hash an API object carries is the answer to one of its kind.  (That the challenge is,
    too, is part of the definition of [challenge]; that provers and verifiers use it is C15, C24, C61 and C63.) *)
Theorem C52_hashes_are_answers :
  forall (E : env), env_laws E ->
    (forall p : params E, made_params p -> exists t, plain_asks (E := E) KParams (t, b_ "hash", 32%nat) /\ params_get_hash p = prf E t (b_ "hash") 32) /\
    (forall s : input_set E, made_input_set s -> exists t, plain_asks (E := E) KInputSet (t, b_ "hash", 32%nat) /\ input_set_get_hash s = prf E t (b_ "hash") 32) /\
    (forall st : statement E, made_statement st -> exists t, plain_asks (E := E) KStatement (t, b_ "hash", 32%nat) /\ st_get_hash st = prf E t (b_ "hash") 32) /\
    (forall p, ParSpec.made_params (E := E) p -> exists t, parallel_asks (E := E) KParams (t, b_ "hash", 32%nat) /\ ParParams.params_get_hash p = prf E t (b_ "hash") 32) /\
    (forall s, ParSpec.made_input_set (E := E) s -> exists t, parallel_asks (E := E) KInputSet (t, b_ "hash", 32%nat) /\ ParStatement.input_set_get_hash s = prf E t (b_ "hash") 32) /\
    (forall st, ParSpec.made_statement (E := E) st -> exists t, parallel_asks (E := E) KStatement (t, b_ "hash", 32%nat) /\ ParStatement.st_get_hash st = prf E t (b_ "hash") 32).
Proof.
  intros E L. split; [|split; [|split; [|split; [|split]]]].
  - intros p H. eexists. split; [apply plain_params|]. exact (Binding.made_params_hash p H).
  - intros s H. destruct (Binding.made_input_set_hash s H) as (k & _ & _ & Hk). eexists. split; [apply plain_input_set|]. exact Hk.
  - intros st H. eexists. split; [apply plain_statement|]. exact (Binding.made_statement_hash L st H).
  - intros p H. eexists. split; [apply parallel_params|]. exact (ParBinding.made_params_hash p H).
  - intros s H. destruct (ParBinding.made_input_set_hash s H) as (k & _ & _ & Hk). eexists. split; [apply parallel_input_set|]. exact Hk.
  - intros st H. eexists. split; [apply parallel_statement|]. exact (ParBinding.made_statement_hash L st H).
Qed.
Print Assumptions C52_hashes_are_answers.

Example C52_example : exists q q', plain_asks (E := E0) KInputSet q /\ parallel_asks (E := E0) KInputSet q' /\ q <> q'.
Proof.
  eexists _, _. split; [exact (plain_input_set (E := E0) [s1] 1)|]. split; [exact (parallel_input_set (E := E0) [s1] [] 1)|].
  intros H. exact (proj1 (C52_questions_disjoint E0 _ KInputSet KInputSet) (plain_input_set (E := E0) [s1] 1) (eq_ind_r (parallel_asks KInputSet) (parallel_input_set (E := E0) [s1] [] 1) H)).
Qed.
