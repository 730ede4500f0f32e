(** What it means that a file can be read as given records with given positions: every sequence of calls of a
    RecordReader is answered by the cursor of Spec/CursorSpec.v. *)
From Verif Require Import Base.Bytes Model.RecordReader Spec.CursorSpec Spec.CursorLink.

Definition reads_as hash decompress transpose_decode (file : list Z) (v : view) : Prop :=
  forall cs, Forall (call_ok v (zlen file)) cs ->
  exists d, reader_run hash decompress transpose_decode file cs NewRecordReader = Some (cursor_run v cs 0, d) /\ rd_ok d = true.
(** Positions in increasing order: as pairs, and as numbers. *)
Definition pos_lt (p q : Z * Z) : Prop := before p q = true /\ numeric p < numeric q.
