(** Model of riegeli/varint/varint_writing.h, varint_reading.h and varint_reading.cc.
    The 32-bit and the 64-bit functions are instances of one template; [w] is the number of
    bits of [T] and [m] is [kMaxLengthVarint<T>] (varint_internal.h:25-26: 5 and 10). *)
From Verif Require Import Base.Bytes Model.Endian.

Record vtype := { vbits : Z; vmax : nat }.
Definition V32 : vtype := {| vbits := 32; vmax := 5 |}.
Definition V64 : vtype := {| vbits := 64; vmax := 10 |}.

(** varint_writing.h:182-193, 195-206 [WriteVarint{32,64}(data, char* dest)]: the bytes stored
    from [dest] on.  The do-while loop runs on fuel; if it ran out the result would contain
    the non-byte -1. *)
Fixpoint write_varint_loop (fuel : nat) (data : Z) : list Z :=
  match fuel with
  | O => [-1]
  | S fuel' =>
      let b := byte_cast (Z.lor data 0x80) in
      let data' := Z.shiftr data 7 in
      b :: (if 0x80 <=? data' then write_varint_loop fuel' data' else [byte_cast data'])
  end.
Definition WriteVarint (t : vtype) (data : Z) : list Z :=
  if data <? 0x80 then [byte_cast data] else write_varint_loop (vmax t) data.

(** varint_writing.h:160-172 [LengthVarint{32,64}]; [absl::bit_width(x)] is
    [Z.log2 x + 1] for positive x. *)
Definition LengthVarint (data : Z) : Z :=
  let width := Z.log2 (Z.lor data 1) + 1 in (width * 9 + 64) / 64.

(** varint_writing.h:216-224 [EncodeVarintSigned{32,64}]. [value] is a signed integer;
    [value >> (w-1)] is arithmetic, then cast to unsigned. *)
Definition EncodeVarintSigned (t : vtype) (value : Z) : Z :=
  let w := vbits t in
  Z.lxor ((Z.shiftl (value mod 2 ^ w) 1) mod 2 ^ w)
         ((Z.shiftr value (w - 1)) mod 2 ^ w).

(** varint_reading.h:1534-1540 [DecodeVarintSigned{32,64}]:
    [static_cast<intN_t>((repr >> 1) ^ (~(repr & 1) + 1))]. *)
Definition DecodeVarintSigned (t : vtype) (repr : Z) : Z :=
  let w := vbits t in
  to_signed w (Z.lxor (Z.shiftr repr 1)
                      (((2 ^ w - 1 - Z.land repr 1) + 1) mod 2 ^ w)).

(** Outcome of reading: [VFault] is an out-of-bounds read or a violated assertion,
    [VFail] is the documented failure, [VOk v n] means value [v] and [n] bytes consumed. *)
Inductive vres := VFault | VFail | VOk (v : Z) (n : nat).

(** [acc += (byte - 1) << (index * 7)] in the unsigned type [T]
    (varint_reading.cc:48, 86, 130). *)
Definition acc_add (t : vtype) (acc byte : Z) (index : nat) : Z :=
  let M := 2 ^ vbits t in
  (acc + (Z.shiftl ((byte - 1) mod M) (Z.of_nat index * 7)) mod M) mod M.

(** varint_reading.cc:44-53 [ReadVarintValue<T, initial_index, length>(src, acc)]:
    [n] = length - initial_index bytes are added from index [i] on. *)
Fixpoint read_varint_value (t : vtype) (n i : nat) (src : list Z) (acc : Z) : vres :=
  match n with
  | O => VOk acc i
  | S n' =>
      match nth_error src i with
      | None => VFault
      | Some byte => read_varint_value t n' (S i) src (acc_add t acc byte i)
      end
  end.

(** [byte >= T{1} << (sizeof(T) * 8 - index * 7)] (varint_reading.cc:60, 91, 114, 135, 166). *)
Definition too_big_last (t : vtype) (byte : Z) (index : nat) : bool :=
  Z.shiftl 1 (vbits t - Z.of_nat index * 7) <=? byte.

(** varint_reading.cc:158-179 [ReadVarintFromArrayLoop]; [k] = kMaxLengthVarint - 1 - index
    template instantiations remain. [src] is the array, its length is [available]. *)
Fixpoint array_loop (t : vtype) (canonical : bool) (initial k index : nat)
    (src : list Z) (acc : Z) : vres :=
  if Nat.eqb (length src) index then VFail
  else
    match nth_error src index with
    | None => VFault
    | Some byte =>
        let finish :=
          if canonical && (byte =? 0) then VFail
          else read_varint_value t (S index - initial) initial src acc in
        match k with
        | O => if too_big_last t byte index then VFail else finish
        | S k' =>
            if 0x80 <=? byte then array_loop t canonical initial k' (S index) src acc
            else finish
        end
    end.

(** varint_reading.h:726-760 [ReadVarint{32,64}(const char* src, size_t available, dest)] and
    780-819 (the canonical versions), with 538-544 of the .cc [ReadVarintFromArray]. *)
Definition ReadVarintArray (t : vtype) (canonical : bool) (src : list Z) : vres :=
  match src with
  | [] => VFail
  | byte0 :: src' =>
      if byte0 <? 0x80 then VOk byte0 1
      else
        match src' with
        | [] => VFail
        | byte1 :: _ =>
            let acc := (byte0 + (Z.shiftl ((byte1 - 1) mod 2 ^ vbits t) 7) mod 2 ^ vbits t)
                         mod 2 ^ vbits t in
            if byte1 <? 0x80 then
              if canonical && (byte1 =? 0) then VFail else VOk acc 2
            else array_loop t canonical 2 (vmax t - 3) 2 src acc
        end
  end.

(** varint_reading.cc:55-78 [ReadVarintFromReaderBufferLoop]. [buf] is the readable part of
    the buffer ([cursor() .. limit()]): accessing beyond it is a fault. *)
Fixpoint buffer_loop (t : vtype) (canonical : bool) (initial k index : nat)
    (buf : list Z) (acc : Z) : vres :=
  match nth_error buf index with
  | None => VFault
  | Some byte =>
      let finish :=
        if canonical && (byte =? 0) then VFail
        else read_varint_value t (S index - initial) initial buf acc in
      match k with
      | O => if too_big_last t byte index then VFail else finish
      | S k' =>
          if 0x80 <=? byte then buffer_loop t canonical initial k' (S index) buf acc
          else finish
      end
  end.

(** varint_reading.cc:80-105 [ReadVarintFromReaderLoop]. [src] is everything that remains in
    the reader; [Pull(index + 1)] succeeds iff that many bytes remain. *)
Fixpoint reader_loop (t : vtype) (canonical : bool) (k index : nat)
    (src : list Z) (acc : Z) : vres :=
  if (length src <? S index)%nat then VFail
  else
    match nth_error src index with
    | None => VFault
    | Some byte =>
        let acc := acc_add t acc byte index in
        let finish := if canonical && (byte =? 0) then VFail else VOk acc (S index) in
        match k with
        | O => if too_big_last t byte index then VFail else finish
        | S k' =>
            if 0x80 <=? byte then reader_loop t canonical k' (S index) src acc
            else finish
        end
    end.

(** varint_reading.cc:430-447 [ReadVarintFromReaderBuffer]. [src] is what remains in the
    reader, of which the first [avail] bytes are buffered. *)
Definition ReadVarintFromReaderBuffer (t : vtype) (canonical : bool) (avail : nat)
    (src : list Z) (acc : Z) : vres :=
  let buf := firstn avail src in
  if (vmax t <=? avail)%nat || (last buf 0x80 <? 0x80) then
    buffer_loop t canonical 2 (vmax t - 3) 2 buf acc
  else reader_loop t canonical (vmax t - 3) 2 src acc.

(** varint_reading.h:405-453 [ReadVarint{32,64}(Reader&)] and 469-524 (canonical): after
    [Pull(1, kMaxLengthVarint)] succeeded, [avail >= 1] bytes are buffered. *)
Definition ReadVarintReader (t : vtype) (canonical : bool) (avail : nat) (src : list Z) : vres :=
  match src with
  | [] => VFail
  | byte0 :: src' =>
      if byte0 <? 0x80 then VOk byte0 1
      else if (2 <=? avail)%nat then
        match src' with
        | [] => VFault
        | byte1 :: _ =>
            let acc := (byte0 + (Z.shiftl ((byte1 - 1) mod 2 ^ vbits t) 7) mod 2 ^ vbits t)
                         mod 2 ^ vbits t in
            if byte1 <? 0x80 then
              if canonical && (byte1 =? 0) then VFail else VOk acc 2
            else ReadVarintFromReaderBuffer t canonical avail src acc
        end
      else reader_loop t canonical (vmax t - 2) 1 src byte0
  end.

(** varint_reading.cc:399-420 [SkipVarintFromArrayLoop] with varint_reading.h:1484-1532
    [SkipVarint{32,64}(const char* src, size_t)]: as reading, without computing the value.
    Result: number of bytes, 0 on failure. *)
Fixpoint skip_array_loop (t : vtype) (canonical : bool) (k index : nat) (src : list Z) : nat :=
  if Nat.eqb (length src) index then 0%nat
  else
    match nth_error src index with
    | None => 0%nat
    | Some byte =>
        let finish := if canonical && (byte =? 0) then 0%nat else S index in
        match k with
        | O => if too_big_last t byte index then 0%nat else finish
        | S k' => if 0x80 <=? byte then skip_array_loop t canonical k' (S index) src else finish
        end
    end.
Definition SkipVarintArray (t : vtype) (canonical : bool) (src : list Z) : nat :=
  match src with
  | [] => 0%nat
  | byte0 :: src' =>
      if byte0 <? 0x80 then 1%nat
      else
        match src' with
        | [] => 0%nat
        | byte1 :: _ =>
            if byte1 <? 0x80 then
              if canonical && (byte1 =? 0) then 0%nat else 2%nat
            else skip_array_loop t canonical (vmax t - 3) 2 src
        end
  end.

(** The reader interface used by the rest of the model: value and remaining bytes. *)
Definition ReadVarint (t : vtype) (src : list Z) : option (Z * list Z) :=
  match ReadVarintArray t false src with
  | VOk v n => Some (v, skipn n src)
  | _ => None
  end.
Definition ReadCanonicalVarint (t : vtype) (src : list Z) : option (Z * list Z) :=
  match ReadVarintArray t true src with
  | VOk v n => Some (v, skipn n src)
  | _ => None
  end.

(** varint_reading.cc:768-804 [CountVarints]: size minus the number of bytes with the highest
    bit set.  Simplified: the code computes that count 8 bytes at a time with a mask. *)
Definition CountVarints (value : list Z) : Z :=
  fold_left (fun n byte => n - Z.shiftr byte 7) value (zlen value).
