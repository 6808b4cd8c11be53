(** Facts about the parsing helpers shared by both codecs. *)
From Verif Require Export CoreFacts.

Section CodecCore.
Context {E : env} (L : env_laws E).

Definition all32 (l : list bytes) : Prop := Forall (fun b => length b = 32%nat) l.

(** A parser reads exactly the chunks [enc x] of a value with property [ok]. *)
Definition parses {A} (parse : chunks -> outcome proof_error (A * chunks)) (enc : A -> list bytes) (ok : A -> Prop) : Prop :=
  forall c x c', all32 (ch_left c) ->
    parse c = Ok (x, c') <-> ok x /\ ch_left c = enc x ++ ch_left c' /\ ch_remainder c = ch_remainder c'.

Lemma parse_point_parses : parses (@parse_point E) (fun P => [compress E P]) (fun _ => True).
Proof.
  intros [lf rm] P [lf' rm'] H. unfold parse_point, next_chunk. cbn [ch_left ch_remainder] in *. destruct lf as [|b lf].
  - split; [discriminate|]. intros (_ & H1 & _). discriminate.
  - inversion H as [|? ? Hb Hr]; subst. destruct (decompress E b) as [Q|] eqn:Hd; cbn [ok_or obind].
    + pose proof (compress_decompress E L b Q Hb Hd) as Hc. split.
      * intros Heq. injection Heq as -> -> ->. split; [exact I|]. split; [|reflexivity]. cbn [app]. congruence.
      * intros (_ & H1 & H2). cbn [app] in H1. injection H1 as H1 H3. rewrite H1, (decompress_compress E L) in Hd. congruence.
    + split; [discriminate|]. intros (_ & H1 & _). cbn [app] in H1. injection H1 as H1 _. subst b.
      rewrite (decompress_compress E L) in Hd. discriminate.
Qed.

Lemma parse_scalar_parses : parses parse_scalar (fun s => [scalar_to_bytes s]) (fun _ => True).
Proof.
  intros [lf rm] s [lf' rm'] H. unfold parse_scalar, next_chunk. cbn [ch_left ch_remainder] in *. destruct lf as [|b lf].
  - split; [discriminate|]. intros (_ & H1 & _). discriminate.
  - inversion H as [|? ? Hb Hr]; subst. destruct (scalar_from_canonical b) as [Q|] eqn:Hd; cbn [ok_or obind].
    + pose proof (scalar_to_from_bytes b Q Hb Hd) as Hc. split.
      * intros Heq. injection Heq as -> -> ->. split; [exact I|]. split; [|reflexivity]. cbn [app]. congruence.
      * intros (_ & H1 & H2). cbn [app] in H1. injection H1 as H1 H3. rewrite H1, scalar_from_to_bytes in Hd. congruence.
    + split; [discriminate|]. intros (_ & H1 & _). cbn [app] in H1. injection H1 as H1 _. subst b.
      rewrite scalar_from_to_bytes in Hd. discriminate.
Qed.

Lemma parse_many_parses {A} (parse : chunks -> outcome proof_error (A * chunks)) enc ok : parses parse enc ok ->
  forall k, parses (parse_many parse k) (fun xs => concat (map enc xs)) (fun xs => length xs = k /\ Forall ok xs).
Proof.
  intros Hp. induction k as [|k IH]; intros c xs c' H.
  - cbn [parse_many]. split.
    + intros Heq. injection Heq as <- <-. repeat split. constructor.
    + intros ((Hl & _) & H1 & H2). destruct xs; [|discriminate]. cbn in H1. destruct c, c'; cbn in *; subst. reflexivity.
  - cbn [parse_many]. split.
    + intros Heq. destruct (parse c) as [[x c1]| | |] eqn:E1; cbn [obind] in Heq; try discriminate.
      destruct (parse_many parse k c1) as [[ys c2]| | |] eqn:E2; cbn [obind] in Heq; try discriminate.
      injection Heq as <- <-. apply (Hp c x c1 H) in E1. destruct E1 as (O1 & L1 & R1).
      assert (H1 : all32 (ch_left c1)) by (unfold all32 in *; rewrite L1 in H; apply Forall_app in H; apply H).
      apply (IH c1 ys c2 H1) in E2. destruct E2 as ((O2 & O3) & L2 & R2).
      split; [split; [cbn; lia|constructor; assumption]|]. split; [|congruence].
      cbn [map concat]. rewrite L1, L2, app_assoc. reflexivity.
    + intros ((Hl & Ho) & H1 & H2). destruct xs as [|x xs]; [discriminate|]. inversion Ho; subst.
      cbn [map concat] in H1. rewrite <- app_assoc in H1.
      assert (E1 : parse c = Ok (x, Build_chunks (concat (map enc xs) ++ ch_left c') (ch_remainder c))).
      { apply (Hp _ _ _ H). split; [assumption|]. split; [exact H1|reflexivity]. }
      rewrite E1. cbn [obind].
      assert (E2 : parse_many parse k (Build_chunks (concat (map enc xs) ++ ch_left c') (ch_remainder c)) = Ok (xs, c')).
      { apply IH.
        - cbn [ch_left]. unfold all32 in *. rewrite H1 in H. apply Forall_app in H. apply H.
        - split; [split; [cbn in Hl; lia|assumption]|]. split; [reflexivity|exact H2]. }
      rewrite E2. reflexivity.
Qed.

(** Parsers only fail with [FailedDeserialization]. *)
Definition fd {A} (x : outcome proof_error A) : Prop := (exists a, x = Ok a) \/ x = Err FailedDeserialization.

Lemma fd_ok {A} (a : A) : fd (Ok a). Proof. left. eexists; reflexivity. Qed.
Lemma fd_err {A} : fd (@Err proof_error A FailedDeserialization). Proof. right. reflexivity. Qed.
Lemma fd_bind {A B} (x : outcome proof_error A) (k : A -> outcome proof_error B) : fd x -> (forall a, fd (k a)) -> fd (obind x k).
Proof. intros [[a ->]| ->] H; cbn [obind]; [apply H|apply fd_err]. Qed.
Lemma fd_ok_or {A} (o : option A) : fd (ok_or o FailedDeserialization).
Proof. destruct o; [apply fd_ok|apply fd_err]. Qed.
Lemma fd_u32 bs : fd (parse_u32 bs).
Proof. unfold parse_u32. destruct (negb _); [apply fd_err|apply fd_ok]. Qed.
Lemma fd_point c : fd (@parse_point E c).
Proof. unfold parse_point. destruct (next_chunk c) as [[b c']|]; [|apply fd_err]. apply fd_bind; [apply fd_ok_or|intros; apply fd_ok]. Qed.
Lemma fd_scalar c : fd (parse_scalar c).
Proof. unfold parse_scalar. destruct (next_chunk c) as [[b c']|]; [|apply fd_err]. apply fd_bind; [apply fd_ok_or|intros; apply fd_ok]. Qed.
Lemma fd_many {A} (parse : chunks -> outcome proof_error (A * chunks)) : (forall c, fd (parse c)) -> forall k c, fd (parse_many parse k c).
Proof.
  intros H k. induction k as [|k IH]; intros c; cbn [parse_many]; [apply fd_ok|].
  apply fd_bind; [apply H|]. intros [x c1]. apply fd_bind; [apply IH|]. intros [xs c2]. apply fd_ok.
Qed.

(** * Byte strings as chunks *)

Lemma skipn_skipn_ {A} a b (l : list A) : skipn a (skipn b l) = skipn (a + b) l.
Proof.
  revert l. induction b as [|b IH]; intros l; [rewrite Nat.add_0_r; reflexivity|].
  destruct l as [|x l]; [rewrite !skipn_nil; reflexivity|]. rewrite Nat.add_succ_r. cbn [skipn]. apply IH.
Qed.

Lemma chunks_loop_all k : forall bs, (k * 32 <= length bs)%nat ->
  all32 (chunks_loop k 32 bs) /\ concat (chunks_loop k 32 bs) ++ skipn (k * 32) bs = bs.
Proof.
  induction k as [|k IH]; intros bs H; [split; [constructor|reflexivity]|].
  cbn [chunks_loop].
  destruct (IH (skipn 32 bs)) as [H1 H2]; [rewrite skipn_length; lia|].
  destruct (Nat.leb_spec 32 (length bs)) as [Hle|Hlt]; [|lia].
  split.
  - constructor; [rewrite firstn_length; lia|exact H1].
  - cbn [concat]. rewrite <- app_assoc. replace (S k * 32)%nat with (k * 32 + 32)%nat by lia.
    rewrite <- skipn_skipn_, H2. apply firstn_skipn.
Qed.

Lemma chunks_of_spec bs : all32 (ch_left (chunks_of bs)) /\
  concat (ch_left (chunks_of bs)) ++ ch_remainder (chunks_of bs) = bs.
Proof.
  unfold chunks_of, SERIALIZED_BYTES. cbn [ch_left ch_remainder]. apply chunks_loop_all.
  pose proof (Nat.mul_div_le (length bs) 32 ltac:(lia)). lia.
Qed.

Lemma chunks_of_concat l : all32 l -> chunks_of (concat l) = Build_chunks l [].
Proof.
  intros H. unfold chunks_of, SERIALIZED_BYTES.
  assert (Hl : length (concat l) = (length l * 32)%nat) by (apply concat_shape_length; split; [reflexivity|exact H]).
  cbv zeta. rewrite Hl, Nat.div_mul by lia. pose proof (chunks_loop_concat 32 l ltac:(lia) H) as Hc. change (list byte) with bytes in Hc. rewrite Hc.
  rewrite skipn_all2 by (rewrite Hl; lia). reflexivity.
Qed.

Lemma concat32_inj l l' : all32 l -> all32 l' -> concat l = concat l' -> l = l'.
Proof.
  intros H H' Hc. pose proof (f_equal chunks_of Hc) as He. rewrite !chunks_of_concat in He by assumption. congruence.
Qed.

Lemma parse_u32_iff bs x rest : parse_u32 bs = Ok (x, rest) <-> bs = le_bytes 4 x ++ rest /\ (x < u32_bound)%N.
Proof.
  unfold parse_u32. split.
  - intros H. destruct (Nat.eqb_spec (length (firstn 4 bs)) 4) as [Hl|Hl]; cbn [negb] in H; [|discriminate].
    assert (x = le_val (firstn 4 bs) /\ rest = skipn 4 bs) as [-> ->] by (split; congruence). split.
    + pose proof (le_bytes_le_val (firstn 4 bs)) as He. rewrite Hl in He. rewrite He. symmetry. apply (firstn_skipn 4 bs).
    + pose proof (le_val_bound (firstn 4 bs)) as Hb. rewrite Hl in Hb. exact Hb.
  - intros [-> Hx]. assert (Hl : length (le_bytes 4 x) = 4%nat) by apply le_bytes_length.
    rewrite firstn_app, Hl. rewrite firstn_all2 by lia. rewrite Nat.sub_diag, firstn_O, app_nil_r, Hl. cbn [Nat.eqb negb].
    rewrite le_val_le_bytes_small by exact Hx.
    rewrite skipn_app, Hl, skipn_all2 by lia. reflexivity.
Qed.

Lemma le4_inj x y r r' : (x < u32_bound)%N -> (y < u32_bound)%N -> le_bytes 4 x ++ r = le_bytes 4 y ++ r' -> x = y /\ r = r'.
Proof.
  intros Hx Hy H. assert (Hp : parse_u32 (le_bytes 4 x ++ r) = Ok (x, r)) by (apply parse_u32_iff; split; [reflexivity|exact Hx]).
  rewrite H in Hp. rewrite (proj2 (parse_u32_iff _ y r')) in Hp by (split; [reflexivity|exact Hy]). split; congruence.
Qed.

Lemma all32_points (l : list (pt E)) : all32 (map (compress E) l).
Proof. apply Forall_forall. intros b Hb. apply in_map_iff in Hb. destruct Hb as (P & <- & _). apply (compress_length E L). Qed.
Lemma all32_scalars l : all32 (map scalar_to_bytes l).
Proof. apply Forall_forall. intros b Hb. apply in_map_iff in Hb. destruct Hb as (s & <- & _). apply scalar_to_bytes_length. Qed.

Lemma concat_single {A B} (f : A -> B) l : concat (map (fun x => [f x]) l) = map f l.
Proof. induction l as [|x l IH]; [reflexivity|]. cbn. rewrite IH. reflexivity. Qed.
Lemma existsb_false_iff {A} (f : A -> bool) l : existsb f l = false <-> forall x, In x l -> f x = false.
Proof.
  split.
  - intros H x Hx. destruct (f x) eqn:Ef; [|reflexivity]. assert (existsb f l = true) by (apply existsb_exists; eauto). congruence.
  - intros H. destruct (existsb f l) eqn:Ef; [|reflexivity]. apply existsb_exists in Ef. destruct Ef as (x & Hx & Hf). rewrite (H x Hx) in Hf. discriminate.
Qed.
Lemma map_concat {A B} (f : A -> B) (l : list (list A)) : concat (map (map f) l) = map f (concat l).
Proof. induction l as [|x l IH]; [reflexivity|]. cbn. rewrite map_app, IH. reflexivity. Qed.

Lemma parse_points_parses k : parses (parse_many (@parse_point E) k) (map (compress E)) (fun l => length l = k).
Proof.
  intros c x c' H. rewrite (parse_many_parses _ _ _ parse_point_parses k c x c' H). rewrite concat_single.
  split; [intros ((H1 & _) & H2); split; assumption|intros (H1 & H2)].
  split; [split; [exact H1|apply Forall_forall; intros; exact I]|exact H2].
Qed.

Lemma parse_rows_parses m n : parses (parse_many (parse_many parse_scalar n) m) (fun f => map scalar_to_bytes (concat f)) (shape m n).
Proof.
  intros c x c' H. rewrite (parse_many_parses _ _ _ (parse_many_parses _ _ _ parse_scalar_parses n) m c x c' H).
  assert (Hm : concat (map (fun xs : list scalar => concat (map (fun s => [scalar_to_bytes s]) xs)) x) = map scalar_to_bytes (concat x)).
  { rewrite <- map_concat. f_equal. apply map_ext. intros r. apply concat_single. }
  rewrite Hm. unfold shape. split; intros ((H1 & H2) & H3); (split; [split; [exact H1|]|exact H3]).
  - eapply Forall_impl; [|exact H2]. intros r [Hr _]. exact Hr.
  - eapply Forall_impl; [|exact H2]. intros r Hr. split; [exact Hr|]. apply Forall_forall. intros; exact I.
Qed.

End CodecCore.
