(** Model of what [derive(Serialize, Deserialize)] generates for the proof structures (src/proof.rs line 38, src/parallel/proof.rs
    line 36), with curve25519-dalek's instances for points and scalars, over serde's data model.

    Simplifications: a data format hands over trees rather than bytes; it presents a structure either as a map from field names or as a
    sequence; all errors are one; field identifiers are strings (serde also accepts field numbers and byte strings). *)
From Verif Require Export Env.

(** serde's data model, as far as derived at proof.rs line 38: bytes, sequences, maps *)
Inductive tree :=
| VU8 (b : byte)
| VSeq (vs : list tree)                       (* sequences and tuples *)
| VMap (fields : list (string * tree)).       (* maps, and structures with named fields *)

(** How a format presents structures, and whether it tolerates elements that a visitor of a tuple or structure leaves unread.  (proof.rs line 38.) *)
Inductive style := NamedFields | Positional.
(** the second of these; proof.rs line 38 *)
Inductive leftovers := LeftoversRefused | LeftoversIgnored.

(** all errors of a deserializer; proof.rs line 38 *)
Inductive serde_error := SerdeError.

(** curve25519-dalek: points and scalars are tuples of 32 bytes... (for the fields of proof.rs lines 41-51) *)
Definition bytes_tree (bs : bytes) : tree := VSeq (map VU8 bs).
(** ... vectors are sequences... (proof.rs lines 45-47) *)
Definition vec_tree {A} (f : A -> tree) (l : list A) : tree := VSeq (map f l).
(** ... and structures list their fields in the order of declaration.  (proof.rs lines 38-52.) *)
Definition struct_tree (s : style) (fields : list (string * tree)) : tree :=
  match s with NamedFields => VMap fields | Positional => VSeq (map snd fields) end.

(** one byte of a point or scalar of proof.rs lines 41-51 *)
Definition des_u8 (v : tree) : outcome serde_error byte := match v with VU8 b => Ok b | _ => Err SerdeError end.
(** The visitor reads 32 elements, one by one.  (For proof.rs lines 41-51.) *)
Definition des_32 (lo : leftovers) (v : tree) : outcome serde_error bytes :=
  match v with
  | VSeq vs =>
      let* bs := mapM des_u8 (firstn 32 vs) in
      if (length bs <? 32)%nat then Err SerdeError
      else if (32 <? length vs)%nat then match lo with LeftoversRefused => Err SerdeError | LeftoversIgnored => Ok bs end
      else Ok bs
  | _ => Err SerdeError
  end.
(** dalek's scalar: a canonical encoding is required; proof.rs lines 47-51 *)
Definition des_scalar (lo : leftovers) (v : tree) : outcome serde_error scalar :=
  let* bs := des_32 lo v in ok_or (scalar_from_canonical bs) SerdeError.
(** dalek's point: a valid encoding is required; proof.rs lines 41-46 *)
Definition des_point {E : env} (lo : leftovers) (v : tree) : outcome serde_error (pt E) :=
  let* bs := des_32 lo v in ok_or (decompress E bs) SerdeError.
(** the vectors of proof.rs lines 45-47 *)
Definition des_vec {A} (f : tree -> outcome serde_error A) (v : tree) : outcome serde_error (list A) :=
  match v with VSeq vs => mapM f vs | _ => Err SerdeError end.

(** The derived visitor: a sequence is read in the order of declaration... (proof.rs lines 38-52) *)
Definition visit_seq (lo : leftovers) (names : list string) (vs : list tree) : outcome serde_error (list tree) :=
  if (length vs <? length names)%nat then Err SerdeError
  else if (length names <? length vs)%nat then match lo with LeftoversRefused => Err SerdeError | LeftoversIgnored => Ok (firstn (length names) vs) end
  else Ok vs.
(** ... in a map, unknown fields are skipped, and a field that comes twice is an error... (proof.rs lines 38-52) *)
Fixpoint scan_map (names : list string) (fields got : list (string * tree)) : outcome serde_error (list (string * tree)) :=
  match fields with
  | [] => Ok got
  | (k, v) :: fields' =>
      if existsb (String.eqb k) names then
        if existsb (fun kv => String.eqb k (fst kv)) got then Err SerdeError else scan_map names fields' ((k, v) :: got)
      else scan_map names fields' got
  end.
(** a field found in the map; proof.rs lines 38-52 *)
Definition lookup (got : list (string * tree)) (k : string) : outcome serde_error tree :=
  match find (fun kv => String.eqb k (fst kv)) got with Some kv => Ok (snd kv) | None => Err SerdeError end.
(** ... and so is one that is missing.  (proof.rs lines 38-52.) *)
Definition visit_map (names : list string) (fields : list (string * tree)) : outcome serde_error (list tree) :=
  let* got := scan_map names fields [] in mapM (lookup got) names.
(** by what the format hands over; proof.rs lines 38-52 *)
Definition des_struct (lo : leftovers) (names : list string) (v : tree) : outcome serde_error (list tree) :=
  match v with
  | VSeq vs => visit_seq lo names vs
  | VMap fields => visit_map names fields
  | VU8 _ => Err SerdeError
  end.
