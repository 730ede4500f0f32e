(** Model of riegeli/endian/endian_writing.h and endian_reading.h. *)
From Verif Require Import Base.Bytes.

(** [static_cast<char>(x)] / [static_cast<uint8_t>(x)] seen as an unsigned byte. *)
Definition byte_cast (x : Z) : Z := Z.land x 255.

(** endian_writing.h:121-166 [WriteLittleEndian<uint{8,16,32,64}_t>], the portable branch
    [dest[i] = static_cast<char>(data >> (i * 8))]; [n] is [sizeof(T)].  The
    ABSL_IS_LITTLE_ENDIAN branch (memcpy of the native representation) is the same function
    on a little-endian machine. uint128 (168-177) is the case n = 16. *)
Definition WriteLittleEndian (n : nat) (data : Z) : list Z :=
  map (fun i => byte_cast (Z.shiftr data (8 * Z.of_nat i))) (seq 0 n).

(** endian_writing.h:215-260 [WriteBigEndian<uint{8,16,32,64}_t>]:
    [dest[i] = static_cast<char>(data >> ((n - 1 - i) * 8))]. *)
Definition WriteBigEndian (n : nat) (data : Z) : list Z :=
  map (fun i => byte_cast (Z.shiftr data (8 * Z.of_nat (n - 1 - i)))) (seq 0 n).

(** endian_reading.h:98-148 [ReadLittleEndian<T>(const char* src)], portable branch:
    the bitwise or of [T{src[i]} << (i * 8)]. *)
Fixpoint read_le_from (i : Z) (src : list Z) : Z :=
  match src with
  | [] => 0
  | b :: src' => Z.lor (Z.shiftl b (8 * i)) (read_le_from (i + 1) src')
  end.
Definition ReadLittleEndianArray (src : list Z) : Z := read_le_from 0 src.

(** endian_reading.h:198-248 [ReadBigEndian<T>(const char* src)], portable branch:
    the bitwise or of [T{src[i]} << ((n - 1 - i) * 8)]. *)
Fixpoint read_be (src : list Z) : Z :=
  match src with
  | [] => 0
  | b :: src' => Z.lor (Z.shiftl b (8 * zlen src')) (read_be src')
  end.
Definition ReadBigEndianArray (src : list Z) : Z := read_be src.

(** endian_reading.h:350-356, 371-377: reading from a [Reader]: [Pull(sizeof(T))], decode,
    [move_cursor(sizeof(T))].  The reader is the list of remaining bytes; the result is the
    value and the new remaining bytes, or [None] (position unchanged). *)
Definition ReadLittleEndian (n : nat) (src : list Z) : option (Z * list Z) :=
  if (length src <? n)%nat then None
  else Some (ReadLittleEndianArray (firstn n src), skipn n src).
Definition ReadBigEndian (n : nat) (src : list Z) : option (Z * list Z) :=
  if (length src <? n)%nat then None
  else Some (ReadBigEndianArray (firstn n src), skipn n src).

(** Signed variants: endian_writing.h:184-202 / 262-280 cast to the unsigned type,
    endian_reading.h:163-186 / 263-286 cast back ([w] = number of bits). *)
Definition to_unsigned (w v : Z) : Z := v mod 2 ^ w.
Definition to_signed (w v : Z) : Z := if v <? 2 ^ (w - 1) then v else v - 2 ^ w.
