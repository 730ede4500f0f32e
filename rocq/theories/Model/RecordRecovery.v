(** Reading records from damaged files: RecordReader with Recover(), called by the user or by a recovery function
    (riegeli/records/record_reader.{h,cc}).  The source does not change; see Model/RecordReader.v. *)
From Verif Require Import Base.Bytes Model.Block Model.Chunk Model.SimpleChunk Model.ChunkReader Model.ChunkDecoder Model.RecordReader.

(** What is observed: a record with last_pos(), or a skipped region. *)
Inductive record_event := Read (pos : Z * Z) (r : list Z) | Lost (b e : Z).

Section Recovery.
  Variable hash : list Z -> Z.
  Variable decompress : Z -> list Z -> option (list Z).
  Variable transpose_decode : list Z -> Z -> Z -> option (list Z * list Z).

  Definition read_event (r : list Z) (d : record_reader) : record_event :=
    Read (match last_pos d with Some p => p | None => (0, 0) end) r.

  (** record_reader.h:295-320, a user without a recovery function:
      [for (;;) { if (reader.ReadRecord(record)) ...; else if (!reader.Recover(&skipped_region)) break; }] *)
  Fixpoint RR_ReadAllRecovering (fuel : nat) (content : list Z) (d : record_reader) : option (list record_event * record_reader) :=
    match fuel with
    | O => None
    | S fuel' =>
        match RR_ReadRecord hash decompress transpose_decode content d with
        | None => None
        | Some (Some r, d) =>
            match RR_ReadAllRecovering fuel' content d with
            | None => None
            | Some (es, d') => Some (read_event r d :: es, d')
            end
        | Some (None, d) =>
            match RR_Recover hash content d with
            | None => None
            | Some (None, d) => Some ([], d)
            | Some (Some (b, e), d) =>
                match RR_ReadAllRecovering fuel' content d with
                | None => None
                | Some (es, d') => Some (Lost b e :: es, d')
                end
            end
        end
    end.

  (** ** With a recovery function, given by its answers (a function of the skipped region; it does not touch the reader) *)
  Variable recovery : Z * Z -> bool.
  (** record_reader.h:670-674 [TryRecovery]; the region for which the recovery function has been called *)
  Definition TryRecovery (content : list Z) (d : record_reader) : option (bool * option (Z * Z) * record_reader) :=
    match RR_Recover hash content d with
    | None => None
    | Some (None, d) => Some (false, None, d)
    | Some (Some region, d) => Some (recovery region, Some region, d)
    end.
  Definition lost (region : option (Z * Z)) : list record_event := match region with Some (b, e) => [Lost b e] | None => [] end.

  (** record_reader.cc:342-366 [ReadRecordImpl] *)
  Fixpoint ReadRecordWith_loop (fuel : nat) (content : list Z) (d : record_reader) : option (list record_event * option (list Z) * record_reader) :=
    match fuel with
    | O => None
    | S fuel' =>
        (* if (!TryRecovery()) return false; continue; *)
        let retry d :=
          match TryRecovery content d with
          | None => None
          | Some (false, region, d) => Some (lost region, None, d)
          | Some (true, region, d) =>
              match ReadRecordWith_loop fuel' content d with
              | None => None
              | Some (es, r, d) => Some (lost region ++ es, r, d)
              end
          end in
        match ReadRecord (rd_dec d) with
        | None => None
        | Some (Some r, dec) => Some ([], Some r, put_last true (put_dec dec d))
        | Some (None, dec) =>
            let d := put_dec dec d in
            if negb (rd_ok d) then retry d
            else if negb (dc_ok dec) then retry (put_failed true (put_rec RRecoverChunkDecoder d))
            else
              match RR_ReadChunk hash decompress transpose_decode content d with
              | None => None
              | Some (false, d) => retry d
              | Some (true, d) => ReadRecordWith_loop fuel' content d
              end
        end
    end.
  Definition ReadRecordWith (content : list Z) (d : record_reader) : option (list record_event * option (list Z) * record_reader) :=
    ReadRecordWith_loop (S (S (length content))) content (put_last false d).
  (** [while (reader.ReadRecord(record)) ...] with the calls of the recovery function in between *)
  Fixpoint ReadAllWith (fuel : nat) (content : list Z) (d : record_reader) : option (list record_event * record_reader) :=
    match fuel with
    | O => None
    | S fuel' =>
        match ReadRecordWith content d with
        | None => None
        | Some (es, None, d) => Some (es, d)
        | Some (es, Some r, d) =>
            match ReadAllWith fuel' content d with
            | None => None
            | Some (es', d') => Some (es ++ read_event r d :: es', d')
            end
        end
    end.
End Recovery.
