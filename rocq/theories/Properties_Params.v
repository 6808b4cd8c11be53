(** Properties C01 to C06: parameters and the encoding of ring positions.

    Every theorem is followed by [Print Assumptions], and by an example showing that its hypotheses can be met. *)
From Verif Require Import SpecPlainSound SpecGray GrayRun GrayFacts PlainFacts Binding ToyEnv.

(** C01: acceptance, and the error for everything else.  The three cases of the conclusion cover all pairs. *)
Theorem C01_parameters_accepted_exactly :
  forall (E : env) (n m : N) (G U : pt E),
    (valid_nm n m -> exists p, new_with_generators n m G U = Ok p) /\
    ((n < 2)%N -> new_with_generators n m G U = Err (PE_InvalidParameter "`n < 2`")) /\
    ((2 <= n)%N -> (m < 2)%N -> new_with_generators n m G U = Err (PE_InvalidParameter "`m < 2`")) /\
    ((2 <= n)%N -> (2 <= m)%N -> (2 ^ 32 <= n ^ m)%N ->
       new_with_generators n m G U = Err (PE_InvalidParameter "`n**m` overflowed `u32`")) /\
    params_new (E := E) n m = new_with_generators n m (basepoint E) default_U.
Proof.
  intros E n m G U. split; [|split; [|split; [|split]]].
  - intros H. eexists. apply new_with_generators_ok. exact H.
  - intros H. unfold new_with_generators. rewrite (proj2 (N.ltb_lt n 2) H). reflexivity.
  - intros Hn H. unfold new_with_generators. rewrite (proj2 (N.ltb_ge n 2) Hn), (proj2 (N.ltb_lt m 2) H). reflexivity.
  - intros Hn Hm H. unfold new_with_generators, checked_pow, checked.
    rewrite (proj2 (N.ltb_ge n 2) Hn), (proj2 (N.ltb_ge m 2) Hm). change u32_bound with (2 ^ 32)%N.
    rewrite (proj2 (N.ltb_ge _ _) H). reflexivity.
  - reflexivity.
Qed.
Print Assumptions C01_parameters_accepted_exactly.
Example C01_example : valid_nm 2 31 /\ valid_nm 65535 2 /\ ~ valid_nm 2 32 /\ ~ valid_nm 65536 2.
Proof. unfold valid_nm. repeat split; try (vm_compute; congruence); intros (_ & _ & H); vm_compute in H; congruence. Qed.

(** C02 *)
Theorem C02_parameters_exact :
  forall (E : env) (n m : N) (G U : pt E) (p : params E),
    new_with_generators n m G U = Ok p ->
    get_n p = n /\ get_m p = m /\ get_G p = G /\ get_U p = U /\ get_N p = (n ^ m)%N /\
    length (get_CommitmentG p) = N.to_nat (n * m) /\
    (* the commitment generators are values of BLAKE3 that depend on [n] and [m] only *)
    get_CommitmentH p = from_uniform E (xof E (b_ "Triptych CommitmentH" ++ le_bytes 8 0) 0 64) /\
    (forall i, (i < N.to_nat (n * m))%nat -> nth_error (get_CommitmentG p) i =
       Some (from_uniform E (xof E (b_ "Triptych CommitmentG" ++ le_bytes 8 0 ++ le_bytes 4 n ++ le_bytes 4 m) (64 * i) 64))).
Proof.
  intros E n m G U p H. pose proof (new_with_generators_valid n m G U p H) as Hv.
  assert (Hg : good_params p) by (apply made_good; exists n, m, G, U; exact H).
  pose proof (good_N p Hg) as HN.
  rewrite (new_with_generators_ok n m G U Hv) in H. injection H as <-.
  cbn [get_n get_m get_G get_U get_CommitmentG get_CommitmentH p_n p_m p_G p_U p_CommitmentG p_CommitmentH] in *.
  repeat (split; [first [reflexivity|exact HN|apply commitment_G_length]|]).
  intros i Hi. unfold commitment_G, range.
  rewrite nth_error_map. rewrite (nth_error_nth' _ 0%nat) by (rewrite seq_length; exact Hi).
  rewrite seq_nth by exact Hi. reflexivity.
Qed.
Print Assumptions C02_parameters_exact.
Example C02_example : exists p, new_with_generators (E := E0) 2 31 s1 (smk 777) = Ok p /\ get_N p = 2147483648%N.
Proof.
  eexists. split; [apply new_with_generators_ok; unfold valid_nm; repeat split; vm_compute; congruence|]. vm_compute. reflexivity.
Qed.

(** C02, second half: same [n] and [m], same commitment generators. *)
Theorem C02_generators_depend_on_n_m_only :
  forall (E : env) (p p' : params E), made_params p -> made_params p' -> get_n p = get_n p' -> get_m p = get_m p' ->
    get_CommitmentG p = get_CommitmentG p' /\ get_CommitmentH p = get_CommitmentH p'.
Proof.
  intros E p p' (n & m & G & U & H) (n' & m' & G' & U' & H') Hn Hm.
  pose proof (new_with_generators_valid _ _ _ _ _ H) as Hv. pose proof (new_with_generators_valid _ _ _ _ _ H') as Hv'.
  rewrite new_with_generators_ok in H, H' by assumption. injection H as <-. injection H' as <-.
  cbn in Hn, Hm. subst n' m'. split; reflexivity.
Qed.
Print Assumptions C02_generators_depend_on_n_m_only.
Example C02_generators_example : exists p p' : params E0, made_params p /\ made_params p' /\ p <> p' /\ get_n p = get_n p' /\ get_m p = get_m p'.
Proof.
  destruct (proj1 (C01_parameters_accepted_exactly E0 3 2 s1 (smk 777))) as [p Hp]; [unfold valid_nm; repeat split; vm_compute; congruence|].
  destruct (proj1 (C01_parameters_accepted_exactly E0 3 2 (smk 5) (smk 777))) as [p' Hp']; [unfold valid_nm; repeat split; vm_compute; congruence|].
  exists p, p'. destruct (C02_parameters_exact _ _ _ _ _ _ Hp) as (H1 & H2 & H3 & _). destruct (C02_parameters_exact _ _ _ _ _ _ Hp') as (H1' & H2' & H3' & _).
  split; [eexists _, _, _, _; exact Hp|]. split; [eexists _, _, _, _; exact Hp'|]. split; [|split; congruence].
  intros ->. assert (Hx : s1 = smk 5) by congruence. apply (f_equal sval) in Hx. vm_compute in Hx. discriminate.
Qed.

(** C03: equal hashes, equal parameters (in every field), or an explicit collision of Merlin's hash: two different queries
    with the same answer.  The query of a set of parameters is spelled out by [query_of_params]. *)
Theorem C03_parameter_hash_binds :
  forall (E : env), env_laws E -> forall p p' : params E, made_params p -> made_params p' ->
    params_get_hash p = hash_of (E := E) (query_of_params p) /\
    (query_of_params p = query_of_params p' -> p = p') /\
    (params_get_hash p = params_get_hash p' -> p = p' \/ params_collide p p').
Proof.
  intros E L p p' Hp Hp'. split; [apply made_params_hash; assumption|]. split.
  - intros Hq. destruct (params_hash_binding L p p' Hp Hp') as [H|[H _]].
    + rewrite (made_params_hash p Hp), (made_params_hash p' Hp'), Hq. reflexivity.
    + exact H.
    + contradiction.
  - apply params_hash_binding; assumption.
Qed.
Print Assumptions C03_parameter_hash_binds.
(** The hypotheses are met by any two parameters, see [C02_generators_example]; the collision case is not vacuous either:
    nothing in [env_laws] excludes collisions, as the constant hash shows. *)
Example C03_collision_example : exists (E : env), env_laws E /\ exists p p' : params E, made_params p /\ made_params p' /\
  p <> p' /\ params_get_hash p = params_get_hash p'.
Proof.
  exists (toy (fun _ _ => 0%N) T0). split; [apply toy_laws|].
  destruct (proj1 (C01_parameters_accepted_exactly (toy (fun _ _ => 0%N) T0) 3 2 s1 (smk 777))) as [p Hp]; [unfold valid_nm; repeat split; vm_compute; congruence|].
  destruct (proj1 (C01_parameters_accepted_exactly (toy (fun _ _ => 0%N) T0) 3 2 (smk 5) (smk 777))) as [p' Hp']; [unfold valid_nm; repeat split; vm_compute; congruence|].
  exists p, p'. destruct (C02_parameters_exact _ _ _ _ _ _ Hp) as (H1 & H2 & H3 & _). destruct (C02_parameters_exact _ _ _ _ _ _ Hp') as (H1' & H2' & H3' & _).
  split; [eexists _, _, _, _; exact Hp|]. split; [eexists _, _, _, _; exact Hp'|]. split.
  - intros ->. assert (Hx : s1 = smk 5) by congruence. apply (f_equal sval) in Hx. vm_compute in Hx. discriminate.
  - rewrite !made_params_hash by (eexists _, _, _, _; eassumption). reflexivity.
Qed.

(** C04: both decompositions give the Gray digits of [Spec.gray_digit], all below [n]. *)
Theorem C04_encoding_defined :
  forall n m v : N, valid_nm n m -> (v < n ^ m)%N ->
    decompose n m v = Some (gray_code n (N.to_nat m) v) /\
    decompose_vartime n m v = Some (gray_code n (N.to_nat m) v) /\
    length (gray_code n (N.to_nat m) v) = N.to_nat m /\
    forall j, (j < N.to_nat m)%nat -> exists d,
      nth_error (gray_code n (N.to_nat m) v) j = Some d /\ (d < n)%N /\
      ((d + v / n ^ N.of_nat (S j)) mod n = (v / n ^ N.of_nat j) mod n)%N.
Proof.
  intros n m v (Hn & Hm & Hb) Hv. assert (Hm0 : m <> 0%N) by lia. assert (Hn0 : n <> 0%N) by lia.
  split; [apply decompose_spec; assumption|]. split; [apply decompose_vartime_spec; assumption|].
  split; [apply gray_code_length|]. intros j Hj. exists (gray_digit n v j).
  split; [apply gray_code_nth; exact Hj|]. split; [apply gray_digit_lt; exact Hn0|].
  unfold gray_digit, base_digit.
  set (a := (v / n ^ N.of_nat j)%N). set (b := (v / n ^ N.of_nat (S j))%N).
  pose proof (N.mod_lt a n Hn0). pose proof (N.mod_lt b n Hn0).
  rewrite N.add_mod, N.mod_mod, <- N.add_mod by exact Hn0.
  rewrite (N.div_mod b n Hn0) at 2.
  replace (a mod n + (n - b mod n) + (n * (b / n) + b mod n))%N with (a mod n + (1 + b / n) * n)%N by lia.
  rewrite N.mod_add, N.mod_mod by exact Hn0. reflexivity.
Qed.
Print Assumptions C04_encoding_defined.
Example C04_example : decompose 3 4 77 = Some (gray_code 3 4 77) /\ gray_code 3 4 77 = [1; 2; 0; 2]%N.
Proof. split; vm_compute; reflexivity. Qed.

(** C04: the decompositions are refused exactly for a base below 2 or no digits. *)
Theorem C04_encoding_refused :
  forall n m v : N, (n <= 1 \/ m = 0)%N -> decompose n m v = None /\ decompose_vartime n m v = None /\ gray_new n m = None.
Proof.
  intros n m v H.
  assert (Hc : ((n <=? 1) || (m =? 0))%N = true).
  { destruct H as [H|H]; [rewrite (proj2 (N.leb_le _ _) H); reflexivity|]. rewrite (proj2 (N.eqb_eq _ _) H). apply orb_true_r. }
  unfold decompose, decompose_vartime, gray_new. rewrite Hc. repeat split; reflexivity.
Qed.
Print Assumptions C04_encoding_refused.
Example C04_refused_example : decompose 1 3 0 = None /\ decompose_vartime 3 0 0 = None.
Proof. split; [apply (C04_encoding_refused 1 3 0)|apply (C04_encoding_refused 3 0 0)]; [left|right]; vm_compute; congruence. Qed.

(** C05: the encoding is a bijection between positions and digit vectors. *)
Theorem C05_encoding_bijective :
  forall n m : N, valid_nm n m -> forall ds : list N, length ds = N.to_nat m -> (forall d, In d ds -> (d < n)%N) ->
    exists! v, (v < n ^ m)%N /\ decompose n m v = Some ds.
Proof.
  intros n m (Hn & Hm & Hb) ds Hl Hd. assert (Hm0 : m <> 0%N) by lia.
  destruct (gray_code_surj n Hn (N.to_nat m) ds Hl) as (v & Hv & Hds); [apply Forall_forall; exact Hd|].
  rewrite N2Nat.id in Hv. exists v. split.
  - split; [exact Hv|]. rewrite decompose_spec by assumption. rewrite Hds. reflexivity.
  - intros v' [Hv' Hd']. rewrite decompose_spec in Hd' by assumption. injection Hd' as Hd'.
    apply (gray_code_inj n Hn (N.to_nat m)); rewrite ?N2Nat.id; try assumption. congruence.
Qed.
Print Assumptions C05_encoding_bijective.
Example C05_example : valid_nm 3 4 /\ decompose 3 4 77 = Some [1; 2; 0; 2]%N.
Proof. split; [unfold valid_nm; repeat split; vm_compute; congruence|vm_compute; reflexivity]. Qed.

(** C06: the iterator used by the prover and the verifier. *)
Theorem C06_iterator_enumerates :
  forall n m : N, valid_nm n m ->
    exists it0 items it1, gray_new n m = Some it0 /\ yields it0 items it1 /\ gray_next it1 = (None, it1) /\
      N.of_nat (length items) = (n ^ m)%N /\
      nth_error items 0 = Some (0%nat, 0%N, 0%N) /\
      (forall k x, nth_error items k = Some x -> (0 < k)%nat -> item_spec n m (N.of_nat k) x) /\
      (forall k, (k < length items)%nat ->
         apply_items (repeat 0%N (N.to_nat m)) (firstn (S k) items) = gray_code n (N.to_nat m) (N.of_nat k)).
Proof. intros n m (Hn & Hm & Hb). apply run_all; [exact Hn|lia|exact Hb]. Qed.
Print Assumptions C06_iterator_enumerates.
Example C06_example : exists it, gray_new 2 2 = Some it /\
  yields it [(0%nat, 0, 0); (0%nat, 0, 1); (1%nat, 0, 1); (0%nat, 1, 0)]%N (mk_gray 2 2 4 [0; 1]%N).
Proof. eexists. split; [reflexivity|]. repeat (econstructor; [vm_compute; reflexivity|]). constructor. Qed.
