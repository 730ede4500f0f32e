(** Model of RecordReaderBase::Search (riegeli/records/record_reader.{h,cc}), with Model/RecordReader.v and Model/BinarySearch.v.

    There is no recovery function.  [test()] is a function of the reader, which it may move, returning [None] to cancel;
    the outer [None] is a loop out of fuel or a violated assertion. *)
From Verif Require Import Base.Bytes Model.Block Model.Chunk Model.ChunkReader Model.ChunkDecoder Model.RecordReader Model.BinarySearch.

(** record_reader.cc:582-588: local variables of SearchImpl and the reader: ChunkSuffix is
    (chunk_begin, record_index, num_records). *)
Record search_state := MkSearch { ss_reader : record_reader; ss_less : option (Z * Z * Z); ss_index : Z }.
Definition put_reader d (s : search_state) := MkSearch d (ss_less s) (ss_index s).

Section Search.
  Variable hash : list Z -> Z.
  Variable decompress : Z -> list Z -> option (list Z).
  Variable transpose_decode : list Z -> Z -> Z -> option (list Z * list Z).
  Variable content : list Z.
  Variable test : record_reader -> option (option ordering * record_reader).

  (** record_reader.cc:534-568: ChunkSearchTraits *)
  Definition ChunkEmpty (low high : Z) : bool := high <=? low.
  Definition ChunkMiddle (low high : Z) (s : search_state) : option (option Z * search_state) :=
    if high <=? low then Some (None, s)
    else
      let d := ss_reader s in
      match SeekToChunk hash content kBefore (low + (high - low) / 2) (rd_src d) with
      | None => None
      | Some (b, src) =>
          let d := put_src src d in
          if negb b then Some (None, put_reader (snd (RR_FailSeeking d)) s)
          else Some (Some (r_pos src), put_reader d s)
      end.

  (** record_reader.cc:611-640: the loop over records of a chunk: [n] records remain, [record_index] is the first of them.
      [Some None] cancels; otherwise the ordering with the record index, or [None] if all records are unordered. *)
  Fixpoint SearchRecords (n : nat) (chunk_begin record_index : Z) (d : record_reader)
      : option (option (option (ordering * Z)) * record_reader) :=
    match n with
    | O => Some (Some None, d)
    | S n' =>
        match RR_SeekTo hash decompress transpose_decode content chunk_begin record_index d with
        | None => None
        | Some (false, d) => Some (None, d)
        | Some (true, d) =>
            match test d with
            | None => None
            | Some (o, d) =>
                if negb (rd_ok d) then Some (None, d)
                else
                  match o with
                  | None => Some (None, d)
                  | Some Unordered => SearchRecords n' chunk_begin (record_index + 1) d
                  | Some o => Some (Some (Some (o, record_index)), d)
                  end
            end
        end
    end.

  (** record_reader.cc:589-644: the test of a chunk *)
  Definition SearchChunk (chunk_begin : Z) (s : search_state) : option (option (ordering * Z) * search_state) :=
    let d := ss_reader s in
    let '(b, src) := Seek content chunk_begin (rd_src d) in
    let d := put_src src d in
    if negb b then Some (None, put_reader (snd (RR_FailSeeking d)) s)
    else
      match RR_ReadChunk hash decompress transpose_decode content d with
      | None => None
      | Some (false, d) =>
          if negb (rd_ok d) then Some (None, put_reader d s)
          else Some (Some (Greater, chunk_begin), MkSearch d (ss_less s) 0)
      | Some (true, d) =>
          let chunk_begin := rd_begin d in
          let num_records := dc_num_records (rd_dec d) in
          match SearchRecords (Z.to_nat num_records) chunk_begin 0 d with
          | None => None
          | Some (None, d) => Some (None, put_reader d s)
          | Some (Some None, d) => Some (Some (Unordered, r_pos (rd_src d)), put_reader d s)
          | Some (Some (Some (Less, i)), d) =>
              Some (Some (Less, r_pos (rd_src d)), MkSearch d (Some (chunk_begin, i + 1, num_records)) (ss_index s))
          | Some (Some (Some (o, i)), d) => Some (Some (o, chunk_begin), MkSearch d (ss_less s) i)
          end
      end.

  (** record_reader.cc:650-671: the test of a record *)
  Definition SearchRecord (chunk_begin record_index : Z) (d : record_reader) : option (option ordering * record_reader) :=
    match RR_SeekTo hash decompress transpose_decode content chunk_begin record_index d with
    | None => None
    | Some (false, d) => Some (None, d)
    | Some (true, d) =>
        match test d with
        | None => None
        | Some (o, d) => if negb (rd_ok d) then Some (None, d) else Some (o, d)
        end
    end.
  Definition SearchRecordGuide (chunk_begin record_index : Z) (d : record_reader) : option (option (ordering * Z) * record_reader) :=
    match SearchRecord chunk_begin record_index d with
    | None => None
    | Some (None, d) => Some (None, d)
    | Some (Some o, d) => Some (Some (o, if ge0 o then record_index else DefaultNext record_index), d)
    end.

  (** record_reader.cc:681-686: the end of SearchImpl *)
  Definition SearchFinish (o : ordering) (found index : Z) (d : record_reader) : option (option ordering * record_reader) :=
    match RR_SeekTo hash decompress transpose_decode content found index d with
    | None => None
    | Some (false, d) => Some (None, put_failed true d)
    | Some (true, d) => Some (Some o, d)
    end.

  (** record_reader.cc:570-687: SearchImpl *)
  Definition RR_SearchImpl (d : record_reader) : option (option ordering * record_reader) :=
    if negb (rd_ok d) then Some (None, d)
    else
      let d := put_last false d in
      if negb (r_ok (rd_src d)) then Some (None, put_failed true d)
      else
        let size := zlen content in
        match BinarySearch_cancel ChunkMiddle ChunkEmpty SearchChunk (2 * length content + 1) 0 size (MkSearch d None 0) with
        | None => None
        | Some (None, s) => Some (None, ss_reader s)
        | Some (Some (o, found), s) =>
            match o, ss_less s with
            | Equivalent, _ | _, None => SearchFinish o found (ss_index s) (ss_reader s)
            | _, Some (chunk_begin, record_index, num_records) =>
                match BinarySearch_cancel DefaultMiddle DefaultEmpty (SearchRecordGuide chunk_begin)
                        (2 * Z.to_nat num_records + 1) record_index num_records (ss_reader s) with
                | None => None
                | Some (None, d) => Some (None, d)
                | Some (Some (o', found'), d) =>
                    if ge0 o' then SearchFinish o' chunk_begin found' d
                    else SearchFinish o found (ss_index s) d
                end
            end
        end.
End Search.

(** record_reader.h:717-728: the variant which reads the record for [test()]. *)
Definition RR_Search hash decompress transpose_decode (content : list Z) (test : list Z -> option ordering) (d : record_reader)
    : option (option ordering * record_reader) :=
  RR_SearchImpl hash decompress transpose_decode content
    (fun d => match RR_ReadRecord hash decompress transpose_decode content d with
              | None => None
              | Some (None, d) => Some (Some Unordered, d)
              | Some (Some r, d) => Some (test r, d)
              end) d.
