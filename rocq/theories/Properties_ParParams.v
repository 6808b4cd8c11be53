(** Property C57: the parameters of the parallel protocol.

    Every theorem is followed by [Print Assumptions], and by an example showing that its hypotheses can be met. *)
From Verif Require Import ParSpecSound ParFacts ParBinding ToyEnv.

(** As C01: acceptance, and the error for everything else.  The three cases of the conclusion cover all pairs. *)
Theorem C57_parameters_accepted_exactly :
  forall (E : env) (n m : N) (G G1 U : pt E),
    (valid_nm n m -> exists p, new_with_generators n m G G1 U = Ok p) /\
    ((n < 2)%N -> new_with_generators n m G G1 U = Err (PE_InvalidParameter "`n < 2`")) /\
    ((2 <= n)%N -> (m < 2)%N -> new_with_generators n m G G1 U = Err (PE_InvalidParameter "`m < 2`")) /\
    ((2 <= n)%N -> (2 <= m)%N -> (2 ^ 32 <= n ^ m)%N ->
       new_with_generators n m G G1 U = Err (PE_InvalidParameter "`n**m` overflowed `u32`")) /\
    params_new (E := E) n m = new_with_generators n m (basepoint E) default_G1 default_U.
Proof.
  intros E n m G G1 U. split; [|split; [|split; [|split]]].
  - intros H. eexists. apply new_with_generators_ok. exact H.
  - intros H. unfold new_with_generators. rewrite (proj2 (N.ltb_lt n 2) H). reflexivity.
  - intros Hn H. unfold new_with_generators. rewrite (proj2 (N.ltb_ge n 2) Hn), (proj2 (N.ltb_lt m 2) H). reflexivity.
  - intros Hn Hm H. unfold new_with_generators, checked_pow, checked.
    rewrite (proj2 (N.ltb_ge n 2) Hn), (proj2 (N.ltb_ge m 2) Hm). change u32_bound with (2 ^ 32)%N.
    rewrite (proj2 (N.ltb_ge _ _) H). reflexivity.
  - reflexivity.
Qed.
Print Assumptions C57_parameters_accepted_exactly.
Example C57_accepted_example : valid_nm 2 31 /\ valid_nm 65535 2 /\ ~ valid_nm 2 32 /\ ~ valid_nm 65536 2.
Proof. unfold valid_nm. repeat split; try (vm_compute; congruence); intros (_ & _ & H); vm_compute in H; congruence. Qed.

(** As C02 *)
Theorem C57_parameters_exact :
  forall (E : env) (n m : N) (G G1 U : pt E) (p : params E),
    new_with_generators n m G G1 U = Ok p ->
    get_n p = n /\ get_m p = m /\ get_G p = G /\ get_G1 p = G1 /\ get_U p = U /\ get_N p = (n ^ m)%N /\
    length (get_CommitmentG p) = N.to_nat (n * m) /\
    (* the commitment generators are values of BLAKE3 that depend on [n] and [m] only *)
    get_CommitmentH p = from_uniform E (xof E (b_ "Triptych CommitmentH" ++ le_bytes 8 0) 0 64) /\
    (forall i, (i < N.to_nat (n * m))%nat -> nth_error (get_CommitmentG p) i =
       Some (from_uniform E (xof E (b_ "Triptych CommitmentG" ++ le_bytes 8 0 ++ le_bytes 4 n ++ le_bytes 4 m) (64 * i) 64))).
Proof.
  intros E n m G G1 U p H. pose proof (new_with_generators_valid n m G G1 U p H) as Hv.
  assert (Hg : good_params p) by (apply made_good; exists n, m, G, G1, U; exact H).
  pose proof (good_N p Hg) as HN.
  rewrite (new_with_generators_ok n m G G1 U Hv) in H. injection H as <-.
  cbn [get_n get_m get_G get_G1 get_U get_CommitmentG get_CommitmentH p_n p_m p_G p_G1 p_U p_CommitmentG p_CommitmentH] in *.
  repeat (split; [first [reflexivity|exact HN|apply commitment_G_length]|]).
  intros i Hi. unfold commitment_G, range.
  rewrite nth_error_map. rewrite (nth_error_nth' _ 0%nat) by (rewrite seq_length; exact Hi).
  rewrite seq_nth by exact Hi. reflexivity.
Qed.
Print Assumptions C57_parameters_exact.
Example C57_exact_example : exists p, new_with_generators (E := E0) 2 31 s1 (smk 31) (smk 777) = Ok p /\ get_N p = 2147483648%N.
Proof.
  eexists. split; [apply new_with_generators_ok; unfold valid_nm; repeat split; vm_compute; congruence|]. vm_compute. reflexivity.
Qed.

(** As C02, second half: same [n] and [m], same commitment generators. *)
Theorem C57_generators_depend_on_n_m_only :
  forall (E : env) (p p' : params E), made_params p -> made_params p' -> get_n p = get_n p' -> get_m p = get_m p' ->
    get_CommitmentG p = get_CommitmentG p' /\ get_CommitmentH p = get_CommitmentH p'.
Proof.
  intros E p p' (n & m & G & G1 & U & H) (n' & m' & G' & G1' & U' & H') Hn Hm.
  pose proof (new_with_generators_valid _ _ _ _ _ _ H) as Hv. pose proof (new_with_generators_valid _ _ _ _ _ _ H') as Hv'.
  rewrite new_with_generators_ok in H, H' by assumption. injection H as <-. injection H' as <-.
  cbn in Hn, Hm. subst n' m'. split; reflexivity.
Qed.
Print Assumptions C57_generators_depend_on_n_m_only.
Example C57_generators_example : exists p p' : params E0, made_params p /\ made_params p' /\ p <> p' /\ get_n p = get_n p' /\ get_m p = get_m p'.
Proof.
  destruct (proj1 (C57_parameters_accepted_exactly E0 3 2 s1 (smk 31) (smk 777))) as [p Hp]; [unfold valid_nm; repeat split; vm_compute; congruence|].
  destruct (proj1 (C57_parameters_accepted_exactly E0 3 2 (smk 5) (smk 31) (smk 777))) as [p' Hp']; [unfold valid_nm; repeat split; vm_compute; congruence|].
  exists p, p'. destruct (C57_parameters_exact _ _ _ _ _ _ _ Hp) as (H1 & H2 & H3 & _). destruct (C57_parameters_exact _ _ _ _ _ _ _ Hp') as (H1' & H2' & H3' & _).
  split; [eexists _, _, _, _, _; exact Hp|]. split; [eexists _, _, _, _, _; exact Hp'|]. split; [|split; congruence].
  intros ->. assert (Hx : s1 = smk 5) by congruence. apply (f_equal sval) in Hx. vm_compute in Hx. discriminate.
Qed.

(** As C03: equal hashes, equal parameters (in every field), or an explicit collision of Merlin's hash: two different queries
    with the same answer.  The query of a set of parameters is spelled out by [query_of_params]. *)
Theorem C57_parameter_hash_binds :
  forall (E : env), env_laws E -> forall p p' : params E, made_params p -> made_params p' ->
    params_get_hash p = hash_of (E := E) (query_of_params p) /\
    (query_of_params p = query_of_params p' -> p = p') /\
    (params_get_hash p = params_get_hash p' -> p = p' \/ params_collide p p').
Proof.
  intros E L p p' Hp Hp'. split; [apply made_params_hash; assumption|]. split.
  - intros Hq. destruct (params_hash_binding L p p' Hp Hp') as [H|[H _]].
    + rewrite (made_params_hash p Hp), (made_params_hash p' Hp'), Hq. reflexivity.
    + exact H.
    + contradiction.
  - apply params_hash_binding; assumption.
Qed.
Print Assumptions C57_parameter_hash_binds.
(** The hypotheses are met by any two parameters, see [C57_generators_example]; the collision case is not vacuous either:
    nothing in [env_laws] excludes collisions, as the constant hash shows. *)
Example C57_collision_example : exists (E : env), env_laws E /\ exists p p' : params E, made_params p /\ made_params p' /\
  p <> p' /\ params_get_hash p = params_get_hash p'.
Proof.
  exists (toy (fun _ _ => 0%N) T0). split; [apply toy_laws|].
  destruct (proj1 (C57_parameters_accepted_exactly (toy (fun _ _ => 0%N) T0) 3 2 s1 (smk 31) (smk 777))) as [p Hp]; [unfold valid_nm; repeat split; vm_compute; congruence|].
  destruct (proj1 (C57_parameters_accepted_exactly (toy (fun _ _ => 0%N) T0) 3 2 (smk 5) (smk 31) (smk 777))) as [p' Hp']; [unfold valid_nm; repeat split; vm_compute; congruence|].
  exists p, p'. destruct (C57_parameters_exact _ _ _ _ _ _ _ Hp) as (H1 & H2 & H3 & _). destruct (C57_parameters_exact _ _ _ _ _ _ _ Hp') as (H1' & H2' & H3' & _).
  split; [eexists _, _, _, _, _; exact Hp|]. split; [eexists _, _, _, _, _; exact Hp'|]. split.
  - intros ->. assert (Hx : s1 = smk 5) by congruence. apply (f_equal sval) in Hx. vm_compute in Hx. discriminate.
  - rewrite !made_params_hash by (eexists _, _, _, _, _; eassumption). reflexivity.
Qed.
