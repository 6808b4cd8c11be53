(** Independent specification vocabulary: looking for two different statements with the same hash. *)
From Verif Require Export SpecPlain LazyOracle.

Section SpecCollide.
Context {E : env}.

(** What goes into the hash of a statement: parameters, keys, how many of them are not padding, and the tag. *)
Record description := describe { d_params : params E; d_keys : list (pt E); d_unpadded : N; d_J : pt E }.
Definition sound (d : description) : Prop := made_params (d_params d) /\ (d_unpadded d < 2 ^ 32)%N.
Definition hash_of_description (d : description) : bytes :=
  hash_of (E := E) (statement_query (hash_of (E := E) (query_of_params (d_params d))) (hash_of (E := E) (input_set_query (d_keys d) (d_unpadded d))) (d_J d)).
(** The description of a statement. *)
Definition describes (d : description) (st : statement E) : Prop :=
  d_params d = st_get_params st /\ d_keys d = get_keys (st_get_input_set st) /\ d_J d = st_get_J st /\
  hash_of (E := E) (input_set_query (d_keys d) (d_unpadded d)) = input_set_get_hash (st_get_input_set st) /\ hash_of_description d = st_get_hash st.

(** A searcher asks for hashes of transcripts as it likes and stops with two descriptions. *)
Definition searcher := game transcript (description * description).
(** The hash of what was described is then computed, asking for it like everybody else: three questions for each description. *)
Definition ask_hash {O} (d : description) (next : bytes -> game transcript O) : game transcript O :=
  Ask (query_of_params (d_params d)) (fun params_hash =>
  Ask (input_set_query (d_keys d) (d_unpadded d)) (fun input_set_hash =>
  Ask (statement_query params_hash input_set_hash (d_J d)) next)).
Fixpoint hash_both (g : searcher) : game transcript (description * description * (bytes * bytes)) :=
  match g with
  | Stop (d, d') => ask_hash d (fun h => ask_hash d' (fun h' => Stop ((d, d'), (h, h'))))
  | Ask q next => Ask q (fun a => hash_both (next a))
  end.
End SpecCollide.
Arguments description : clear implicits.
Arguments searcher : clear implicits.

(** It succeeds if the descriptions are different and the hashes are the same. *)
Definition succeeds {E : env} (eqd : forall q q' : transcript, {q = q'} + {q <> q'}) (g : searcher E) (answers : list bytes) : Prop :=
  exists d d' h table, run eqd [] (hash_both g) answers = Some (((d, d'), (h, h)), table) /\ d <> d'.
