(** Where SeekToChunkContaining/Before/After should go, in a file consisting of the chunks [qs]. *)
From Verif Require Import Base.Bytes Model.ChunkReader Spec.FileSpec.

(** The chunk begins at or after [pos], or contains the record position [pos] (kContaining),
    or ends after [pos] (kBefore). *)
Definition stops (w : which_chunk) (pos : Z) (q : placed) : bool :=
  (pos <=? q_begin q) ||
  match w with
  | kContaining => pos <? q_begin q + k_nrec (q_chunk q)
  | kBefore => pos <? q_end q
  | kAfter => false
  end.
(** The first such chunk. *)
Definition seek_target (w : which_chunk) (pos : Z) (qs : list placed) : option placed := find (stops w pos) qs.

(** Calls which navigate within the first [n] bytes. *)
Definition navigation (n : Z) (o : operation) : Prop :=
  match o with
  | OpRead | OpPull => True
  | OpSeekTo _ pos => 0 <= pos <= n
  | _ => False
  end.
