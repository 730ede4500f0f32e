(** Model of riegeli/records/chunk_reader.{h,cc}: [DefaultChunkReaderBase].

    The byte source is its current [content] (a parameter of each call: it may have grown since the
    previous call) and the position of the source reader [r_spos].  Reading past the end returns
    what is left, moves to the end and fails; seeking past the end moves to the end and fails.
    The source itself does not fail ([src.ok()] stays true) and is seekable in both directions.
    Status messages are not modelled.  [None] means that a loop ran out of fuel. *)
From Verif Require Import Base.Bytes Model.Endian Model.Block Model.Chunk.

(** chunk_reader.h:156 *)
Inductive recoverable := kNo | kHaveChunk | kFindChunk.
Inductive which_chunk := kContaining | kBefore | kAfter.

(** chunk_reader.h:191-229: data members; [r_spos] is [SrcReader()->pos()]; [r_open], [r_failed]
    are the state of class Object. *)
Record reader := MkReader {
  r_spos : Z;
  r_pos : Z;
  r_header : list Z;
  r_data : list Z;
  r_block : list Z;
  r_open : bool;
  r_failed : bool;
  r_trunc : bool;
  r_rec : recoverable;
  r_recpos : Z
}.
Definition r_ok (r : reader) : bool := r_open r && negb (r_failed r).

Definition set_spos v r := MkReader v (r_pos r) (r_header r) (r_data r) (r_block r) (r_open r) (r_failed r) (r_trunc r) (r_rec r) (r_recpos r).
Definition set_pos v r := MkReader (r_spos r) v (r_header r) (r_data r) (r_block r) (r_open r) (r_failed r) (r_trunc r) (r_rec r) (r_recpos r).
Definition set_header v r := MkReader (r_spos r) (r_pos r) v (r_data r) (r_block r) (r_open r) (r_failed r) (r_trunc r) (r_rec r) (r_recpos r).
Definition set_data v r := MkReader (r_spos r) (r_pos r) (r_header r) v (r_block r) (r_open r) (r_failed r) (r_trunc r) (r_rec r) (r_recpos r).
Definition set_block v r := MkReader (r_spos r) (r_pos r) (r_header r) (r_data r) v (r_open r) (r_failed r) (r_trunc r) (r_rec r) (r_recpos r).
Definition set_open v r := MkReader (r_spos r) (r_pos r) (r_header r) (r_data r) (r_block r) v (r_failed r) (r_trunc r) (r_rec r) (r_recpos r).
Definition set_failed v r := MkReader (r_spos r) (r_pos r) (r_header r) (r_data r) (r_block r) (r_open r) v (r_trunc r) (r_rec r) (r_recpos r).
Definition set_trunc v r := MkReader (r_spos r) (r_pos r) (r_header r) (r_data r) (r_block r) (r_open r) (r_failed r) v (r_rec r) (r_recpos r).
Definition set_rec v p r := MkReader (r_spos r) (r_pos r) (r_header r) (r_data r) (r_block r) (r_open r) (r_failed r) (r_trunc r) v p.

(** [recoverable_ = rec; recoverable_pos_ = p; return Fail(...)] *)
Definition fail_rec (rec : recoverable) (p : Z) (r : reader) : bool * reader :=
  (false, set_failed true (set_rec rec p r)).

(** ** The source *)
(** Read/ReadAndAppend(length): success flag, bytes obtained, new source position. *)
Definition src_read (content : list Z) (spos length : Z) : bool * list Z * Z :=
  if spos + length <=? zlen content then (true, zslice spos length content, spos + length)
  else (false, zdrop spos content, Z.max spos (zlen content)).
(** Seek(new_pos). *)
Definition src_seek (content : list Z) (new_pos : Z) : bool * Z :=
  if new_pos <=? zlen content then (true, new_pos) else (false, zlen content).

(** Overwrites part of an array from offset [off] on. *)
Definition blit (off : Z) (got dst : list Z) : list Z :=
  ztake off dst ++ got ++ zdrop (off + zlen got) dst.

(** chunk_reader.cc:41-55 [Initialize]: [pos] is the position of the source.
    The header arrays are uninitialised memory in C++, zeros here. *)
Definition InitializeReader (pos : Z) : reader :=
  let r := MkReader pos pos (zeros 40) [] (zeros 24) true false false kNo 0 in
  if IsPossibleChunkBoundary pos then r else snd (fail_rec kFindChunk pos r).

(** chunk_reader.cc:81-85 [FailReading] *)
Definition FailReading (r : reader) : bool * reader :=
  (false, if r_pos r <? r_spos r then set_trunc true r else r).
(** chunk_reader.cc:87-94 [FailSeeking] *)
Definition FailSeeking (r : reader) : bool * reader := fail_rec kFindChunk (r_spos r) r.

Section ChunkReader.
  Variable hash : list Z -> Z.

  (** chunk_reader.cc:311-341 [ReadBlockHeader] *)
  Definition ReadBlockHeader (content : list Z) (r : reader) : bool * reader :=
    let remaining_length := RemainingInBlockHeader (r_spos r) in
    let '(okr, got, spos') := src_read content (r_spos r) remaining_length in
    let r := set_spos spos' (set_block (blit (BlockHeaderSize - remaining_length) got (r_block r)) r) in
    if negb okr then FailReading r
    else if negb (bh_computed_header_hash hash (r_block r) =? bh_stored_header_hash (r_block r)) then
      fail_rec kFindChunk (r_spos r) r
    else (true, r).

  (** chunk_reader.cc:119-141 and 229-251: reading a block header inside a chunk and checking
      [previous_chunk]. *)
  Definition ReadInnerBlockHeader (content : list Z) (r : reader) : bool * reader :=
    let block_begin := RoundDownToBlockBoundary (r_spos r) in
    let '(ok, r) := ReadBlockHeader content r in
    if negb ok then (false, r)
    else if negb (bh_previous_chunk (r_block r) =? u64 (block_begin - r_pos r)) then
      if bh_next_chunk (r_block r) <=? kBlockSize then
        fail_rec kHaveChunk (u64 (block_begin + bh_next_chunk (r_block r))) r
      else fail_rec kFindChunk (r_spos r) r
    else (true, r).

  (** chunk_reader.cc:264-308: checks after the last part of the chunk header was read. *)
  Definition CheckChunkHeader (r : reader) : bool * reader :=
    let h := r_header r in
    if negb (ch_computed_header_hash hash h =? ch_stored_header_hash h) then
      fail_rec kFindChunk (r_spos r) r
    else if (RemainingInBlock (r_pos r) <? ChunkHeaderSize) &&
            negb (bh_next_chunk (r_block r) =?
                  u64 (ChunkEnd (ch_data_size h) (ch_num_records h) (r_pos r)
                       - u64 (r_pos r + RemainingInBlock (r_pos r)))) then
      fail_rec kFindChunk (r_spos r) r
    else if (r_pos r =? 0) &&
            (negb (ch_data_size h =? 0) || negb (ch_chunk_type h =? kFileSignature) ||
             negb (ch_num_records h =? 0) || negb (ch_decoded_data_size h =? 0)) then
      fail_rec kFindChunk (r_spos r) r
    else (true, r).

  (** chunk_reader.cc:217-309 [ReadChunkHeader]: the do-while loop; the header is shorter than
      a block, so it is interrupted at most once, but the model does not rely on it. *)
  Fixpoint ReadChunkHeader_loop (fuel : nat) (content : list Z) (r : reader) : option (bool * reader) :=
    match fuel with
    | O => None
    | S fuel' =>
        let '(ok, r) :=
          if 0 <? RemainingInBlockHeader (r_spos r) then ReadInnerBlockHeader content r else (true, r) in
        if negb ok then Some (false, r)
        else
          let chunk_header_read := DistanceWithoutOverhead (r_pos r) (r_spos r) in
          let remaining_length := u64 (ChunkHeaderSize - chunk_header_read) in
          let length_to_read := Z.min remaining_length (RemainingInBlock (r_spos r)) in
          let '(okr, got, spos') := src_read content (r_spos r) length_to_read in
          let r := set_spos spos' (set_header (blit chunk_header_read got (r_header r)) r) in
          if negb okr then Some (FailReading r)
          else if length_to_read <? remaining_length then ReadChunkHeader_loop fuel' content r
          else Some (CheckChunkHeader r)
    end.
  Definition ReadChunkHeader (content : list Z) (r : reader) : option (bool * reader) :=
    ReadChunkHeader_loop 42 content r.

  (** chunk_reader.cc:185-215 [PullChunkHeader]; [src.Pull()] succeeds iff a byte is available. *)
  Definition PullChunkHeader (content : list Z) (r : reader) : option (bool * reader) :=
    if negb (r_ok r) then Some (false, r)
    else
      let r := set_trunc false r in
      if r_spos r <? r_pos r then
        if zlen content <=? r_spos r then Some (false, r)
        else Some (fail_rec kHaveChunk (r_pos r) (set_pos (r_spos r) r))
      else if DistanceWithoutOverhead (r_pos r) (r_spos r) <? ChunkHeaderSize then
        ReadChunkHeader content r
      else Some (true, r).

  (** chunk_reader.cc:117-160: the loop reading chunk data. *)
  Fixpoint ReadData_loop (fuel : nat) (content : list Z) (chunk_end : Z) (r : reader)
      : option (bool * reader) :=
    let data_size := ch_data_size (r_header r) in
    if zlen (r_data r) <? data_size then
      match fuel with
      | O => None
      | S fuel' =>
          let '(ok, r) :=
            if 0 <? RemainingInBlockHeader (r_spos r) then
              let block_begin := RoundDownToBlockBoundary (r_spos r) in
              let '(ok, r) := ReadInnerBlockHeader content r in
              if negb ok then (false, r)
              else if negb (bh_next_chunk (r_block r) =? u64 (chunk_end - block_begin)) then
                fail_rec kFindChunk (r_spos r) r
              else (true, r)
            else (true, r) in
          if negb ok then Some (false, r)
          else
            let length := Z.min (data_size - zlen (r_data r)) (RemainingInBlock (r_spos r)) in
            let '(okr, got, spos') := src_read content (r_spos r) length in
            let r := set_spos spos' (set_data (r_data r ++ got) r) in
            if negb okr then Some (FailReading r) else ReadData_loop fuel' content chunk_end r
      end
    else Some (true, r).

  (** chunk_reader.cc:108-183 [ReadChunk] (ReadHint is only a hint and omitted). *)
  Definition ReadChunk (content : list Z) (r : reader) : option (option chunk * reader) :=
    match PullChunkHeader content r with
    | None => None
    | Some (false, r) => Some (None, r)
    | Some (true, r) =>
        let h := r_header r in
        let chunk_end := ChunkEnd (ch_data_size h) (ch_num_records h) (r_pos r) in
        match ReadData_loop (S (length content)) content chunk_end r with
        | None => None
        | Some (false, r) => Some (None, r)
        | Some (true, r) =>
            let '(oks, spos') := src_seek content chunk_end in
            let r := set_spos spos' r in
            if negb oks then Some (None, snd (FailReading r))
            else if negb (hash (r_data r) =? ch_data_hash (r_header r)) then
              Some (None, snd (fail_rec kHaveChunk chunk_end r))
            else
              Some (Some (MkChunk (r_header r) (r_data r)), set_data [] (set_pos chunk_end r))
        end
    end.

  (** chunk_reader.cc:343-428 [Recover]; the two labels are the two modes of the loop.
      Result: whether recovery was applicable, and the skipped region. *)
  Inductive recover_mode := again | find_chunk.
  Fixpoint Recover_loop (fuel : nat) (content : list Z) (region_begin : Z) (m : recover_mode)
      (r : reader) : option (option (Z * Z) * reader) :=
    match fuel with
    | O => None
    | S fuel' =>
        match m with
        | again =>
            let rec := r_rec r in
            let recoverable_pos := r_recpos r in
            let r := set_data [] (set_failed false (set_rec kNo 0 r)) in
            match rec with
            | kHaveChunk =>
                let r := set_pos recoverable_pos r in
                if r_ok r then
                  let '(oks, spos') := src_seek content (r_pos r) in
                  let r := set_spos spos' r in
                  if negb oks then Some (Some (region_begin, r_spos r), r)
                  else if negb (IsPossibleChunkBoundary (r_pos r)) then
                    Recover_loop fuel' content region_begin again (set_rec kFindChunk (r_pos r) r)
                  else Some (Some (region_begin, r_pos r), r)
                else Some (Some (region_begin, r_pos r), r)
            | _ => Recover_loop fuel' content region_begin find_chunk (set_pos recoverable_pos r)
            end
        | find_chunk =>
            let r := set_pos (u64 (r_pos r + RemainingInBlock (r_pos r))) r in
            let '(oks, spos') := src_seek content (r_pos r) in
            let r := set_spos spos' r in
            if negb oks then Some (Some (region_begin, r_spos r), r)
            else
              let '(okh, r) := ReadBlockHeader content r in
              if negb okh then
                match r_rec r with
                | kNo => Some (Some (region_begin, r_pos r), r)
                | _ => Recover_loop fuel' content region_begin again r
                end
              else if bh_previous_chunk (r_block r) =? 0 then Some (Some (region_begin, r_pos r), r)
              else
                let r := set_pos (u64 (r_pos r + bh_next_chunk (r_block r))) r in
                if negb (IsPossibleChunkBoundary (r_pos r)) then
                  Recover_loop fuel' content region_begin find_chunk r
                else
                  let '(oks, spos') := src_seek content (r_pos r) in
                  let r := set_spos spos' r in
                  if negb oks then Some (Some (region_begin, r_spos r), r)
                  else Some (Some (region_begin, r_pos r), r)
        end
    end.
  Definition Recover (content : list Z) (r : reader) : option (option (Z * Z) * reader) :=
    match r_rec r with
    | kNo => Some (None, r)
    | _ => Recover_loop (2 * length content + 4) content (r_pos r) again r
    end.

  (** chunk_reader.cc:435-450 [Seek] *)
  Definition Seek (content : list Z) (new_pos : Z) (r : reader) : bool * reader :=
    if negb (r_ok r) then (false, r)
    else if r_pos r =? new_pos then (true, r)
    else
      let r := set_data [] (set_pos new_pos (set_trunc false r)) in
      let '(oks, spos') := src_seek content new_pos in
      let r := set_spos spos' r in
      if negb oks then FailSeeking r
      else if negb (IsPossibleChunkBoundary new_pos) then fail_rec kFindChunk new_pos r
      else (true, r).

  (** chunk_reader.cc:538-555: the search loop of [SeekToChunk]; [skip_seek] is the entry by
      [goto check_current_chunk]. *)
  Fixpoint SeekToChunk_loop (fuel : nat) (content : list Z) (which : which_chunk)
      (new_pos chunk_begin : Z) (skip_seek : bool) (r : reader) : option (bool * reader) :=
    match fuel with
    | O => None
    | S fuel' =>
        let '(oks, r) :=
          if skip_seek then (true, r)
          else
            let r := set_pos chunk_begin r in
            let '(oks, spos') := src_seek content chunk_begin in
            (oks, set_spos spos' r) in
        if negb oks then Some (FailSeeking r)
        else if new_pos <=? r_pos r then Some (true, r)
        else
          match ReadChunkHeader content r with
          | None => None
          | Some (false, r) =>
              if negb (r_ok r) then Some (false, r) else Some (FailSeeking (set_trunc false r))
          | Some (true, r) =>
              let h := r_header r in
              let chunk_end := ChunkEnd (ch_data_size h) (ch_num_records h) (r_pos r) in
              match which with
              | kContaining =>
                  if new_pos <? u64 (r_pos r + ch_num_records h) then Some (true, r)
                  else SeekToChunk_loop fuel' content which new_pos chunk_end false r
              | kBefore =>
                  if new_pos <? chunk_end then Some (true, r)
                  else SeekToChunk_loop fuel' content which new_pos chunk_end false r
              | kAfter => SeekToChunk_loop fuel' content which new_pos chunk_end false r
              end
          end
    end.

  (** chunk_reader.cc:495-536: the part under [read_block_header:]. *)
  Definition SeekToChunk_block (fuel : nat) (content : list Z) (which : which_chunk)
      (new_pos block_begin : Z) (r : reader) : option (bool * reader) :=
    let r := set_data [] (set_pos block_begin r) in
    let '(oks, spos') := src_seek content block_begin in
    let r := set_spos spos' r in
    if negb oks then Some (FailSeeking r)
    else
      let '(okh, r) := ReadBlockHeader content r in
      if negb okh then
        if negb (r_ok r) then Some (false, r)
        else if negb (r_trunc r) && (new_pos <=? r_pos r) then Some (true, r)
        else Some (FailSeeking (set_trunc false r))
      else if bh_previous_chunk (r_block r) =? 0 then
        SeekToChunk_loop fuel content which new_pos 0 true r
      else
        let chunk_begin := u64 (block_begin + bh_next_chunk (r_block r)) in
        let inside := match which with kAfter => false | _ => new_pos <? chunk_begin end in
        if inside && (block_begin <? bh_previous_chunk (r_block r)) then
          Some (fail_rec kFindChunk (r_spos r) r)
        else
          let chunk_begin := if inside then block_begin - bh_previous_chunk (r_block r) else chunk_begin in
          if negb (IsPossibleChunkBoundary chunk_begin) then Some (fail_rec kFindChunk (r_spos r) r)
          else SeekToChunk_loop fuel content which new_pos chunk_begin false r.

  (** chunk_reader.cc:464-556 [SeekToChunk<which_chunk>]. *)
  Definition SeekToChunk (content : list Z) (which : which_chunk) (new_pos : Z) (r : reader)
      : option (bool * reader) :=
    let fuel := S (S (length content)) in
    if negb (r_ok r) then Some (false, r)
    else if r_pos r =? new_pos then Some (true, r)
    else
      let r := set_trunc false r in
      let block_begin := RoundDownToBlockBoundary new_pos in
      if r_pos r <? new_pos then
        match PullChunkHeader content r with
        | None => None
        | Some (false, r) =>
            if negb (r_ok r) then Some (false, r) else Some (FailSeeking (set_trunc false r))
        | Some (true, r) =>
            let h := r_header r in
            let chunk_end := ChunkEnd (ch_data_size h) (ch_num_records h) (r_pos r) in
            let stop := match which with
                        | kContaining => new_pos <? u64 (r_pos r + ch_num_records h)
                        | kBefore => new_pos <? chunk_end
                        | kAfter => false
                        end in
            if stop then Some (true, r)
            else if chunk_end <? block_begin then SeekToChunk_block fuel content which new_pos block_begin r
            else SeekToChunk_loop fuel content which new_pos chunk_end false (set_data [] r)
        end
      else SeekToChunk_block fuel content which new_pos block_begin r.

  (** chunk_reader.cc:57-79 [Done] with Object::Close (object.h): result of Close(). *)
  Definition Close (r : reader) : bool * reader :=
    if negb (r_open r) then (negb (r_failed r), r)
    else
      let r' := set_rec kNo 0 r in
      let r' :=
        if r_trunc r then snd (fail_rec kHaveChunk (r_spos r) r') else r' in
      let r' := set_open false (set_data [] r') in
      (negb (r_failed r'), r').
End ChunkReader.

(** ** Users of the chunk reader (not library code) *)
Section Users.
  Variable hash : list Z -> Z.

  (** [while (reader.ReadChunk(chunk)) ...]: the chunks returned before the first [false]. *)
  Fixpoint ReadAll (fuel : nat) (content : list Z) (r : reader) : option (list chunk * reader) :=
    match fuel with
    | O => None
    | S fuel' =>
        match ReadChunk hash content r with
        | None => None
        | Some (None, r) => Some ([], r)
        | Some (Some c, r) =>
            match ReadAll fuel' content r with
            | None => None
            | Some (cs, r) => Some (c :: cs, r)
            end
        end
    end.

  (** One ReadChunk call for each element of [lens], at a moment when the source consists of the first [n]
      bytes of [file]. *)
  Fixpoint ReadSchedule (file : list Z) (lens : list Z) (r : reader)
      : option (list (option chunk) * reader) :=
    match lens with
    | [] => Some ([], r)
    | n :: lens' =>
        match ReadChunk hash (ztake n file) r with
        | None => None
        | Some (o, r) =>
            match ReadSchedule file lens' r with
            | None => None
            | Some (os, r) => Some (o :: os, r)
            end
        end
    end.

  (** Reading with automatic recovery: after a failed read, [Recover()] and go on; stop at the first
      [false] which is not recoverable.  The events are a chunk returned, with pos() before and after, and
      a skipped region reported. *)
  Inductive event := Got (begin : Z) (c : chunk) (e : Z) | Skipped (begin e : Z).
  Fixpoint ReadAllRecovering (fuel : nat) (content : list Z) (r : reader)
      : option (list event * reader) :=
    match fuel with
    | O => None
    | S fuel' =>
        match ReadChunk hash content r with
        | None => None
        | Some (Some c, r') =>
            match ReadAllRecovering fuel' content r' with
            | None => None
            | Some (es, r'') => Some (Got (r_pos r) c (r_pos r') :: es, r'')
            end
        | Some (None, r) =>
            match Recover hash content r with
            | None => None
            | Some (None, r) => Some ([], r)
            | Some (Some (b, e), r) =>
                match ReadAllRecovering fuel' content r with
                | None => None
                | Some (es, r) => Some (Skipped b e :: es, r)
                end
            end
        end
    end.

  (** Any sequence of calls, each with the content of the source at that time; the chunks returned. *)
  Inductive operation := OpRead | OpPull | OpRecover | OpSeek (p : Z) | OpSeekTo (w : which_chunk) (p : Z) | OpClose.
  Definition RunOp (o : operation) (content : list Z) (r : reader) : option (option chunk * reader) :=
    match o with
    | OpRead => ReadChunk hash content r
    | OpPull => match PullChunkHeader hash content r with Some (_, r) => Some (None, r) | None => None end
    | OpRecover => match Recover hash content r with Some (_, r) => Some (None, r) | None => None end
    | OpSeek p => Some (None, snd (Seek content p r))
    | OpSeekTo w p => match SeekToChunk hash content w p r with Some (_, r) => Some (None, r) | None => None end
    | OpClose => Some (None, snd (Close r))
    end.
  Fixpoint RunOps (ops : list (operation * list Z)) (r : reader) : option (list chunk * reader) :=
    match ops with
    | [] => Some ([], r)
    | (o, content) :: ops' =>
        match RunOp o content r with
        | None => None
        | Some (oc, r) =>
            match RunOps ops' r with
            | None => None
            | Some (cs, r) => Some (match oc with Some c => c :: cs | None => cs end, r)
            end
        end
    end.
End Users.
