(** Independent specification vocabulary, parallel protocol: looking for another statement with the hash of a given one. *)
From Verif Require Export ParSpecCollide.

Section SpecSecond.
Context {E : env}.
(** A searcher asks for hashes of transcripts as it likes and stops with one description. *)
Definition second_searcher := game transcript (description E).
Fixpoint hash_found {O} (g : second_searcher) (next : description E -> bytes -> game transcript O) : game transcript O :=
  match g with
  | Stop d' => ask_hash d' (next d')
  | Ask q rest => Ask q (fun a => hash_found (rest a) next)
  end.
(** The given description is hashed, the searcher looks for another, and what it ends with is hashed. *)
Definition second_game (d : description E) (g : second_searcher) : game transcript (description E * (bytes * bytes)) :=
  ask_hash d (fun h => hash_found g (fun d' h' => Stop (d', (h, h')))).
Definition finds_second (eqd : forall q q' : transcript, {q = q'} + {q <> q'}) (d : description E) (g : second_searcher) (answers : list bytes) : Prop :=
  exists d' h table, run eqd [] (second_game d g) answers = Some ((d', (h, h)), table) /\ d' <> d.
End SpecSecond.
Arguments second_searcher : clear implicits.
