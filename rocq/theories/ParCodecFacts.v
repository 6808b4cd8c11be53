(** The codec of parallel Triptych proofs. *)
From Verif Require Export CodecCore ParSpec ParFacts.

Section CodecFacts.
Context {E : env}.

Definition elements (pf : proof E) : list bytes :=
  [compress E (pf_A pf); compress E (pf_B pf); compress E (pf_C pf); compress E (pf_D pf);
   scalar_to_bytes (pf_z_A pf); scalar_to_bytes (pf_z_C pf); scalar_to_bytes (pf_z pf); scalar_to_bytes (pf_z1 pf)]
  ++ map (compress E) (pf_X pf) ++ map (compress E) (pf_X1 pf) ++ map (compress E) (pf_Y pf) ++ map scalar_to_bytes (concat (pf_f pf)).

Lemma encoding_elements n1 m pf : encoding n1 m pf = le_bytes 4 n1 ++ le_bytes 4 m ++ concat (elements pf).
Proof. reflexivity. Qed.

Lemma to_bytes_encoding n1 m (pf : proof E) : rectangular n1 m pf -> to_bytes pf = Ok (encoding n1 m pf).
Proof.
  intros ((H1 & H2 & H3 & H4) & HX & HX1 & HY & Hf & Hr). unfold to_bytes.
  destruct (pf_f pf) as [|row f] eqn:Ef; [cbn in Hf; lia|]. rewrite <- Ef in *. rewrite Ef at 1. cbn [index nth_error obind].
  assert (Hrow : length row = N.to_nat n1) by (rewrite Ef in Hr; inversion Hr; assumption).
  rewrite Hrow, Hf, !N2Nat.id. change u32_bound with (2 ^ 32)%N. rewrite !N.mod_small by lia.
  f_equal. unfold encoding. f_equal. f_equal. rewrite concat_app. rewrite !concat_app. cbn [concat]. rewrite app_nil_r, <- !app_assoc. reflexivity.
Qed.

Lemma to_bytes_panics_iff (pf : proof E) : to_bytes pf = Panic <-> pf_f pf = [].
Proof.
  unfold to_bytes. destruct (pf_f pf) as [|row f]; cbn [index nth_error obind]; split; intros H; try discriminate; reflexivity.
Qed.

Context (L : env_laws E).

Lemma elements_all32 pf : all32 (elements pf).
Proof.
  unfold elements, all32. apply Forall_app. split.
  - repeat constructor; try apply (compress_length E L); apply scalar_to_bytes_length.
  - apply Forall_app. split; [apply (all32_points L)|]. apply Forall_app. split; [apply (all32_points L)|]. apply Forall_app. split; [apply (all32_points L)|apply all32_scalars].
Qed.

Lemma elements_length n1 m (pf : proof E) : rectangular n1 m pf -> length (elements pf) = N.to_nat (8 + 3 * m + m * n1).
Proof.
  intros (_ & HX & HX1 & HY & Hf). unfold elements. rewrite !app_length, !map_length, HX, HX1, HY, (concat_shape_length _ _ _ Hf). cbn [length]. lia.
Qed.

Lemma encoding_length n1 m (pf : proof E) : rectangular n1 m pf -> N.of_nat (length (encoding n1 m pf)) = encoded_size n1 m.
Proof.
  intros H. rewrite encoding_elements, !app_length, !le_bytes_length.
  rewrite (concat_shape_length (length (elements pf)) 32) by (split; [reflexivity|apply elements_all32]).
  rewrite (elements_length n1 m) by exact H. unfold encoded_size. lia.
Qed.

Lemma from_bytes_sound bs (pf : proof E) : from_bytes bs = Ok pf -> exists n1 m, rectangular n1 m pf /\ bs = encoding n1 m pf.
Proof.
  unfold from_bytes. intros H. destruct (parse_u32 bs) as [[n1 it1]| | |] eqn:P1; cbn [obind] in H; try discriminate.
  apply parse_u32_iff in P1. destruct P1 as [B1 L1].
  unfold checked_add, checked in H. destruct (N.ltb_spec (n1 + 1) u32_bound) as [Hn|Hn]; cbn [ok_or obind] in H; [|discriminate].
  destruct (N.ltb_spec (n1 + 1) 2) as [Hn2|Hn2]; [discriminate|].
  destruct (parse_u32 it1) as [[m it2]| | |] eqn:P2; cbn [obind] in H; try discriminate.
  apply parse_u32_iff in P2. destruct P2 as [B2 L2].
  destruct (N.ltb_spec m 2) as [Hm2|Hm2]; [discriminate|].
  destruct (chunks_of_spec it2) as [A0 C0]. set (c0 := chunks_of it2) in *. clearbody c0.
  assert (Hstep : forall l c (c' : chunks), all32 (ch_left c) -> ch_left c = l ++ ch_left c' -> all32 (ch_left c')).
  { intros l c c' Ha Hc. unfold all32 in *. rewrite Hc in Ha. apply Forall_app in Ha. apply Ha. }
  destruct (parse_point c0) as [[A c1]| | |] eqn:Q1; cbn [obind] in H; try discriminate.
  apply (parse_point_parses L) in Q1; [|exact A0]. destruct Q1 as (_ & Q1 & R1). pose proof (Hstep _ _ _ A0 Q1) as A1.
  destruct (parse_point c1) as [[B c2]| | |] eqn:Q2; cbn [obind] in H; try discriminate.
  apply (parse_point_parses L) in Q2; [|exact A1]. destruct Q2 as (_ & Q2 & R2). pose proof (Hstep _ _ _ A1 Q2) as A2.
  destruct (parse_point c2) as [[C c3]| | |] eqn:Q3; cbn [obind] in H; try discriminate.
  apply (parse_point_parses L) in Q3; [|exact A2]. destruct Q3 as (_ & Q3 & R3). pose proof (Hstep _ _ _ A2 Q3) as A3.
  destruct (parse_point c3) as [[D c4]| | |] eqn:Q4; cbn [obind] in H; try discriminate.
  apply (parse_point_parses L) in Q4; [|exact A3]. destruct Q4 as (_ & Q4 & R4). pose proof (Hstep _ _ _ A3 Q4) as A4.
  destruct (parse_scalar c4) as [[zA c5]| | |] eqn:Q5; cbn [obind] in H; try discriminate.
  apply parse_scalar_parses in Q5; [|exact A4]. destruct Q5 as (_ & Q5 & R5). pose proof (Hstep _ _ _ A4 Q5) as A5.
  destruct (parse_scalar c5) as [[zC c6]| | |] eqn:Q6; cbn [obind] in H; try discriminate.
  apply parse_scalar_parses in Q6; [|exact A5]. destruct Q6 as (_ & Q6 & R6). pose proof (Hstep _ _ _ A5 Q6) as A6.
  destruct (parse_scalar c6) as [[z c7]| | |] eqn:Q7; cbn [obind] in H; try discriminate.
  apply parse_scalar_parses in Q7; [|exact A6]. destruct Q7 as (_ & Q7 & R7). pose proof (Hstep _ _ _ A6 Q7) as A7.
  destruct (parse_scalar c7) as [[z1 c7a]| | |] eqn:Q7a; cbn [obind] in H; try discriminate.
  apply parse_scalar_parses in Q7a; [|exact A7]. destruct Q7a as (_ & Q7a & R7a). pose proof (Hstep _ _ _ A7 Q7a) as A7a.
  destruct (parse_many parse_point (N.to_nat m) c7a) as [[X c7b]| | |] eqn:Q7b; cbn [obind] in H; try discriminate.
  apply (parse_points_parses L) in Q7b; [|exact A7a]. destruct Q7b as (HX & Q7b & R7b). pose proof (Hstep _ _ _ A7a Q7b) as A7b.
  destruct (parse_many parse_point (N.to_nat m) c7b) as [[X1 c8]| | |] eqn:Q8; cbn [obind] in H; try discriminate.
  apply (parse_points_parses L) in Q8; [|exact A7b]. destruct Q8 as (HX1 & Q8 & R8). pose proof (Hstep _ _ _ A7b Q8) as A8.
  destruct (parse_many parse_point (N.to_nat m) c8) as [[Y c9]| | |] eqn:Q9; cbn [obind] in H; try discriminate.
  apply (parse_points_parses L) in Q9; [|exact A8]. destruct Q9 as (HY & Q9 & R9). pose proof (Hstep _ _ _ A8 Q9) as A9.
  destruct (parse_many (parse_many parse_scalar (N.to_nat n1)) (N.to_nat m) c9) as [[f c10]| | |] eqn:Q10; cbn [obind] in H; try discriminate.
  apply parse_rows_parses in Q10; [|exact A9]. destruct Q10 as (Hf & Q10 & R10).
  destruct (Nat.eqb_spec (length (ch_remainder c10)) 0) as [Hrem|Hrem]; cbn [negb] in H; [|discriminate].
  unfold next_chunk in H. destruct (ch_left c10) as [|? ?] eqn:Hleft; [|discriminate].
  destruct (negb _ || negb _ || negb _); [discriminate|]. destruct (negb _); [discriminate|]. destruct (existsb _ _); [discriminate|].
  assert (Hpf : pf = mk_proof A B C D X X1 Y f zA zC z z1) by congruence. clear H. subst pf.
  exists n1, m. change u32_bound with (2 ^ 32)%N in *. split.
  - split; [lia|]. cbn [pf_X pf_X1 pf_Y pf_f]. repeat split; try assumption; apply Hf.
  - rewrite encoding_elements, B1, B2. do 2 f_equal. rewrite <- C0. apply length_zero_iff_nil in Hrem.
    rewrite R1, R2, R3, R4, R5, R6, R7, R7a, R7b, R8, R9, R10, Hrem, app_nil_r. f_equal.
    rewrite Q1, Q2, Q3, Q4, Q5, Q6, Q7, Q7a, Q7b, Q8, Q9, Q10, app_nil_r. reflexivity.
Qed.

Lemma from_bytes_complete n1 m (pf : proof E) : rectangular n1 m pf -> from_bytes (encoding n1 m pf) = Ok pf.
Proof.
  intros Hrect. destruct Hrect as ((H1 & H2 & H3 & H4) & HX & HX1 & HY & Hf). rewrite encoding_elements. unfold from_bytes.
  rewrite (proj2 (parse_u32_iff _ n1 (le_bytes 4 m ++ concat (elements pf)))) by (split; [reflexivity|unfold u32_bound; lia]).
  cbn [obind]. unfold checked_add, checked. change u32_bound with (2 ^ 32)%N.
  rewrite (proj2 (N.ltb_lt _ _) H2). cbn [ok_or obind].
  rewrite (proj2 (N.ltb_ge _ _)) by lia.
  rewrite (proj2 (parse_u32_iff _ m (concat (elements pf)))) by (split; [reflexivity|exact H4]). cbn [obind].
  rewrite (proj2 (N.ltb_ge m 2)) by lia.
  pose proof (elements_all32 pf) as A. rewrite chunks_of_concat by exact A. unfold elements in *. rewrite <- ?app_comm_cons in *.
  assert (Hpt : forall (P : pt E) l, all32 (compress E P :: l) -> parse_point (Build_chunks (compress E P :: l) []) = Ok (P, Build_chunks l [])).
  { intros P l Hl. apply (parse_point_parses L); [exact Hl|]. repeat split. }
  assert (Hsc : forall s l, all32 (scalar_to_bytes s :: l) -> parse_scalar (Build_chunks (scalar_to_bytes s :: l) []) = Ok (s, Build_chunks l [])).
  { intros s l Hl. apply parse_scalar_parses; [exact Hl|]. repeat split. }
  assert (Ht : forall (b : bytes) l, all32 (b :: l) -> all32 l) by (intros b l Hl; inversion Hl; assumption).
  assert (Ha : forall a l, all32 (a ++ l) -> all32 l) by (intros a l Hl; apply Forall_app in Hl; apply Hl).
  cbn [app] in *.
  rewrite Hpt by exact A. cbn [obind]. apply Ht in A. rewrite Hpt by exact A. cbn [obind]. apply Ht in A.
  rewrite Hpt by exact A. cbn [obind]. apply Ht in A. rewrite Hpt by exact A. cbn [obind]. apply Ht in A.
  rewrite Hsc by exact A. cbn [obind]. apply Ht in A. rewrite Hsc by exact A. cbn [obind]. apply Ht in A.
  rewrite Hsc by exact A. cbn [obind]. apply Ht in A. rewrite Hsc by exact A. cbn [obind]. apply Ht in A.
  rewrite (proj2 (parse_points_parses L (N.to_nat m)
             (Build_chunks (map (compress E) (pf_X pf) ++ map (compress E) (pf_X1 pf) ++ map (compress E) (pf_Y pf) ++ map scalar_to_bytes (concat (pf_f pf))) []) (pf_X pf)
             (Build_chunks (map (compress E) (pf_X1 pf) ++ map (compress E) (pf_Y pf) ++ map scalar_to_bytes (concat (pf_f pf))) []) A)) by (repeat split; exact HX).
  cbn [obind]. apply Ha in A.
  rewrite (proj2 (parse_points_parses L (N.to_nat m)
             (Build_chunks (map (compress E) (pf_X1 pf) ++ map (compress E) (pf_Y pf) ++ map scalar_to_bytes (concat (pf_f pf))) []) (pf_X1 pf)
             (Build_chunks (map (compress E) (pf_Y pf) ++ map scalar_to_bytes (concat (pf_f pf))) []) A)) by (repeat split; exact HX1).
  cbn [obind]. apply Ha in A.
  rewrite (proj2 (parse_points_parses L (N.to_nat m) (Build_chunks (map (compress E) (pf_Y pf) ++ map scalar_to_bytes (concat (pf_f pf))) []) (pf_Y pf) (Build_chunks (map scalar_to_bytes (concat (pf_f pf))) []) A)) by (repeat split; exact HY).
  cbn [obind]. apply Ha in A.
  rewrite (proj2 (parse_rows_parses (N.to_nat m) (N.to_nat n1) (Build_chunks (map scalar_to_bytes (concat (pf_f pf))) []) (pf_f pf) (Build_chunks [] []) A))
    by (repeat split; try apply Hf; cbn [ch_left]; rewrite app_nil_r; reflexivity).
  cbn [obind ch_remainder length Nat.eqb negb next_chunk ch_left].
  rewrite HX, HX1, HY, (proj1 Hf), N2Nat.id, N.eqb_refl. cbn [negb orb].
  rewrite (proj2 (existsb_false_iff _ _)).
  - destruct pf; reflexivity.
  - intros row Hrow. destruct Hf as [_ Hf]. rewrite Forall_forall in Hf. rewrite (Hf row Hrow), N2Nat.id, N.eqb_refl. reflexivity.
Qed.

Lemma from_bytes_fd bs : fd (@from_bytes E bs).
Proof.
  unfold from_bytes.
  apply fd_bind; [apply fd_u32|]. intros [n1 it1]. apply fd_bind; [apply fd_ok_or|]. intros n. destruct (_ <? _)%N; [apply fd_err|].
  apply fd_bind; [apply fd_u32|]. intros [m it2]. destruct (_ <? _)%N; [apply fd_err|].
  do 4 (apply fd_bind; [apply fd_point|]; intros [? ?]). do 4 (apply fd_bind; [apply fd_scalar|]; intros [? ?]).
  do 3 (apply fd_bind; [apply fd_many; intros; apply fd_point|]; intros [? ?]).
  apply fd_bind; [apply fd_many; intros; apply fd_many; intros; apply fd_scalar|]. intros [? ?].
  destruct (negb _); [apply fd_err|]. destruct (next_chunk _); [apply fd_err|].
  destruct (_ || _); [apply fd_err|]. destruct (negb _); [apply fd_err|]. destruct (existsb _ _); [apply fd_err|apply fd_ok].
Qed.

Lemma from_bytes_iff bs (pf : proof E) : from_bytes bs = Ok pf <-> exists n1 m, rectangular n1 m pf /\ bs = encoding n1 m pf.
Proof.
  split; [apply from_bytes_sound|]. intros (n1 & m & H1 & ->). apply from_bytes_complete. exact H1.
Qed.

Lemma rectangular_dims n1 m n1' m' (pf : proof E) : rectangular n1 m pf -> rectangular n1' m' pf -> n1 = n1' /\ m = m'.
Proof.
  intros ((H1 & H2 & H3 & H4) & HX & HX1 & HY & Hf & Hr) (_ & HX' & HX1' & HY' & Hf' & Hr').
  split; [|lia]. destruct (pf_f pf) as [|row f]; [cbn in Hf; lia|]. inversion Hr; inversion Hr'; subst. lia.
Qed.

Lemma decode_encode (pf : proof E) n1 m : rectangular n1 m pf -> exists bs, to_bytes pf = Ok bs /\ from_bytes bs = Ok pf.
Proof. intros H. exists (encoding n1 m pf). split; [apply to_bytes_encoding; exact H|apply from_bytes_complete; exact H]. Qed.

Lemma encode_decode bs (pf : proof E) : from_bytes bs = Ok pf -> to_bytes pf = Ok bs.
Proof. intros H. apply from_bytes_iff in H. destruct H as (n1 & m & H & ->). apply to_bytes_encoding. exact H. Qed.

Lemma well_shaped_rectangular (p : params E) pf : good_params p -> well_shaped p pf -> rectangular (p_n p - 1) (p_m p) pf.
Proof.
  intros Hg (HX & HX1 & HY & Hf). pose proof (gp_n p Hg). pose proof (gp_m p Hg). pose proof (gp_pow p Hg). pose proof (good_m_u32 p Hg) as Hm.
  assert (p_n p <= p_n p ^ p_m p)%N by (apply n_le_pow; lia). unfold u32_bound in *.
  split; [lia|]. unfold get_m, get_n in *. split; [exact HX|]. split; [exact HX1|]. split; [exact HY|].
  replace (N.to_nat (p_n p - 1)) with (N.to_nat (p_n p) - 1)%nat by lia. exact Hf.
Qed.

(** A truncated or extended encoding is never accepted. *)
Lemma from_bytes_prefix_free bs extra (pf pf' : proof E) : from_bytes bs = Ok pf -> from_bytes (bs ++ extra) = Ok pf' -> extra = [].
Proof.
  intros H H'. apply from_bytes_iff in H. apply from_bytes_iff in H'. destruct H as (n1 & m & H & ->). destruct H' as (n1' & m' & H' & He).
  pose proof (encoding_length n1 m pf H) as Hl. pose proof (encoding_length n1' m' pf' H') as Hl'. rewrite <- He, app_length in Hl'.
  rewrite !encoding_elements in He. rewrite <- !app_assoc in He.
  destruct H as ((? & ? & ? & ?) & _). destruct H' as ((? & ? & ? & ?) & _).
  apply le4_inj in He; [|unfold u32_bound; lia|unfold u32_bound; lia]. destruct He as [-> He].
  apply le4_inj in He; [|unfold u32_bound; lia|unfold u32_bound; lia]. destruct He as [-> He].
  apply length_zero_iff_nil. lia.
Qed.

(** * Borsh *)

Lemma borsh_roundtrip (pf : proof E) n1 m trailing : rectangular n1 m pf -> (encoded_size n1 m < 2 ^ 32)%N ->
  exists bs, borsh_serialize pf = Ok bs /\ borsh_deserialize_reader (bs ++ trailing) = Ok (pf, trailing).
Proof.
  intros H Hs. pose proof (encoding_length n1 m pf H) as Hl. unfold borsh_serialize. rewrite (to_bytes_encoding n1 m) by exact H.
  rewrite Hl. change u32_bound with (2 ^ 32)%N. rewrite (proj2 (N.ltb_lt _ _) Hs).
  exists (le_bytes 4 (encoded_size n1 m) ++ encoding n1 m pf). split; [reflexivity|].
  unfold borsh_deserialize_reader. rewrite !app_length, le_bytes_length.
  rewrite (proj2 (Nat.ltb_ge _ _)) by lia.
  assert (Hf4 : firstn 4 ((le_bytes 4 (encoded_size n1 m) ++ encoding n1 m pf) ++ trailing) = le_bytes 4 (encoded_size n1 m)).
  { rewrite <- app_assoc, firstn_app, le_bytes_length, Nat.sub_diag, firstn_O, app_nil_r. apply firstn_all2. rewrite le_bytes_length. lia. }
  assert (Hs4 : skipn 4 ((le_bytes 4 (encoded_size n1 m) ++ encoding n1 m pf) ++ trailing) = encoding n1 m pf ++ trailing).
  { rewrite <- app_assoc, skipn_app, le_bytes_length, Nat.sub_diag, skipn_O, skipn_all2 by (rewrite le_bytes_length; lia). reflexivity. }
  cbv zeta. rewrite Hf4, Hs4. rewrite le_val_le_bytes_small by exact Hs. rewrite <- Hl, Nat2N.id.
  rewrite app_length. rewrite (proj2 (Nat.ltb_ge _ _)) by lia.
  rewrite firstn_app, Nat.sub_diag, firstn_O, app_nil_r, firstn_all2 by lia. rewrite (from_bytes_complete n1 m) by exact H.
  rewrite skipn_app, Nat.sub_diag, skipn_O, skipn_all2 by lia. reflexivity.
Qed.

Lemma borsh_canonical reader (pf : proof E) rest : borsh_deserialize_reader reader = Ok (pf, rest) ->
  exists bs, borsh_serialize pf = Ok bs /\ reader = bs ++ rest.
Proof.
  unfold borsh_deserialize_reader. destruct (Nat.ltb_spec (length reader) 4) as [|H4]; [discriminate|]. cbv zeta.
  destruct (Nat.ltb_spec (length (skipn 4 reader)) (N.to_nat (le_val (firstn 4 reader)))) as [|Hlen]; [discriminate|].
  destruct (from_bytes (firstn (N.to_nat (le_val (firstn 4 reader))) (skipn 4 reader))) as [q| | |] eqn:Hd; try discriminate.
  intros H. assert (q = pf /\ rest = skipn (N.to_nat (le_val (firstn 4 reader))) (skipn 4 reader)) as [-> ->] by (split; congruence). clear H.
  apply encode_decode in Hd. unfold borsh_serialize. rewrite Hd. rewrite firstn_length_le by exact Hlen. rewrite N2Nat.id.
  pose proof (le_val_bound (firstn 4 reader)) as Hb. pose proof (le_bytes_le_val (firstn 4 reader)) as Hle.
  rewrite firstn_length_le in Hb, Hle by exact H4. change (256 ^ N.of_nat 4)%N with u32_bound in Hb.
  rewrite (proj2 (N.ltb_lt _ _) Hb). eexists. split; [reflexivity|]. rewrite Hle, <- app_assoc, !firstn_skipn. reflexivity.
Qed.

Lemma borsh_total reader : exists r, r = @borsh_deserialize_reader E reader /\ (r = Err IoError \/ exists x, r = Ok x).
Proof.
  eexists. split; [reflexivity|]. unfold borsh_deserialize_reader. destruct (_ <? _)%nat; [left; reflexivity|]. cbv zeta.
  destruct (_ <? _)%nat; [left; reflexivity|].
  destruct (from_bytes_fd (firstn (N.to_nat (le_val (firstn 4 reader))) (skipn 4 reader))) as [[a ->]| ->]; [right; eexists; reflexivity|left; reflexivity].
Qed.

End CodecFacts.
