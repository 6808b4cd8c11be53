(** What a call leaves behind whose generator may panic. *)
From Verif Require Export OsRng.

(** A call that unwinds leaves the caller's transcript, a [&mut Transcript], in the state it had reached. *)
Inductive crash_result (O A : Type) :=
| Crashed (t : transcript) (o : O)
| Finished (result : A) (t : transcript) (o : O).
Arguments Crashed {O A} _ _.
Arguments Finished {O A} _ _ _.
