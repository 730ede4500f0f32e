(** Model of riegeli/ordered_varint/ordered_varint_writing.{h,cc} and
    ordered_varint_reading.{h,cc}. A writer is the list of bytes appended; a reader is the list
    of remaining bytes ([Pull(n)] succeeds iff at least n bytes remain, as documented for
    [Reader::Pull]); [None] is "false, position unchanged". *)
From Verif Require Import Base.Bytes Model.Endian.

(** ordered_varint_writing.h:71-76 [WriteOrderedVarint32] and
    ordered_varint_writing.cc:26-54 [WriteOrderedVarint32Slow]. *)
Definition WriteOrderedVarint32 (data : Z) : list Z :=
  if data <? 0x80 then [data]
  else if data <? Z.shiftl 1 (2 * 7) then
    WriteBigEndian 2 (Z.lor data (Z.shiftl 0x80 8))
  else if data <? Z.shiftl 1 (3 * 7) then
    byte_cast (Z.lor (byte_cast (Z.shiftr data (2 * 8))) 0xc0) :: WriteBigEndian 2 (data mod 2 ^ 16)
  else if data <? Z.shiftl 1 (4 * 7) then
    WriteBigEndian 4 (Z.lor data (Z.shiftl 0xe0 (3 * 8)))
  else 0xf0 :: WriteBigEndian 4 data.

(** ordered_varint_writing.h:78-83 [WriteOrderedVarint64] and
    ordered_varint_writing.cc:56-115 [WriteOrderedVarint64Slow].  In the 7-byte case the second
    store (4 bytes at offset 3) overlaps the last byte of the first one. *)
Definition WriteOrderedVarint64 (data : Z) : list Z :=
  if data <? 0x80 then [data]
  else if data <? Z.shiftl 1 (2 * 7) then
    WriteBigEndian 2 (Z.lor data (Z.shiftl 0x80 8))
  else if data <? Z.shiftl 1 (3 * 7) then
    byte_cast (Z.lor (byte_cast (Z.shiftr data (2 * 8))) 0xc0) :: WriteBigEndian 2 (data mod 2 ^ 16)
  else if data <? Z.shiftl 1 (4 * 7) then
    WriteBigEndian 4 (Z.lor data (Z.shiftl 0xe0 (3 * 8)))
  else if data <? Z.shiftl 1 (5 * 7) then
    byte_cast (Z.lor (byte_cast (Z.shiftr data (4 * 8))) 0xf0) :: WriteBigEndian 4 (data mod 2 ^ 32)
  else if data <? Z.shiftl 1 (6 * 7) then
    WriteBigEndian 2 (Z.lor (Z.shiftr data (4 * 8) mod 2 ^ 16) (Z.shiftl 0xf8 8))
      ++ WriteBigEndian 4 (data mod 2 ^ 32)
  else if data <? Z.shiftl 1 (7 * 7) then
    firstn 3 (WriteBigEndian 4 (Z.lor (Z.shiftr data (3 * 8) mod 2 ^ 32) (Z.shiftl 0xfc (3 * 8))))
      ++ WriteBigEndian 4 (data mod 2 ^ 32)
  else if data <? Z.shiftl 1 (8 * 7) then
    WriteBigEndian 8 (Z.lor data (Z.shiftl 0xfe (7 * 8)))
  else 0xff :: WriteBigEndian 8 data.

(** ordered_varint_writing.h:85-99 [LengthOrderedVarint{32,64}] (same formula). *)
Definition LengthOrderedVarint (data : Z) : Z :=
  let width := Z.log2 (Z.lor data 1) + 1 in (width * 9 + 63) / 64.

(** [ReadBigEndian<T>(src.cursor() + off)] with sizeof(T) = n. *)
Definition rd (off n : nat) (src : list Z) : Z := ReadBigEndianArray (firstn n (skipn off src)).
(** [x & ~(c << k)] in a w-bit type. *)
Definition clear_bits (w x c k : Z) : Z := Z.land x (2 ^ w - 1 - Z.shiftl c k).

(** The common tail of each branch: [if (!src.Pull(n)) return false; dest = ...;
    if (dest < 1 << bound) return false; src.move_cursor(n); return true;] *)
Definition finish (n : nat) (src : list Z) (dest bound : Z) : option (Z * list Z) :=
  if (length src <? n)%nat then None
  else if dest <? Z.shiftl 1 bound then None
  else Some (dest, skipn n src).

(** ordered_varint_reading.h:66-75 [ReadOrderedVarint32] and ordered_varint_reading.cc:26-63. *)
Definition ReadOrderedVarint32 (src : list Z) : option (Z * list Z) :=
  match src with
  | [] => None
  | first_byte :: rest =>
      if first_byte <? 0x80 then Some (first_byte, rest)
      else if first_byte <? 0xc0 then finish 2 src (clear_bits 16 (rd 0 2 src) 0x80 8) 7
      else if first_byte <? 0xe0 then
        finish 3 src (Z.lor (Z.shiftl (clear_bits 8 first_byte 0xc0 0) (2 * 8)) (rd 1 2 src)) (2 * 7)
      else if first_byte <? 0xf0 then finish 4 src (clear_bits 32 (rd 0 4 src) 0xe0 (3 * 8)) (3 * 7)
      else if 0xf0 <? first_byte then None
      else finish 5 src (rd 1 4 src) (4 * 7)
  end.

(** ordered_varint_reading.h:77-86 [ReadOrderedVarint64] and ordered_varint_reading.cc:65-135. *)
Definition ReadOrderedVarint64 (src : list Z) : option (Z * list Z) :=
  match src with
  | [] => None
  | first_byte :: rest =>
      if first_byte <? 0x80 then Some (first_byte, rest)
      else if first_byte <? 0xc0 then finish 2 src (clear_bits 16 (rd 0 2 src) 0x80 8) 7
      else if first_byte <? 0xe0 then
        finish 3 src (Z.lor (Z.shiftl (clear_bits 8 first_byte 0xc0 0) (2 * 8)) (rd 1 2 src)) (2 * 7)
      else if first_byte <? 0xf0 then finish 4 src (clear_bits 32 (rd 0 4 src) 0xe0 (3 * 8)) (3 * 7)
      else if first_byte <? 0xf8 then
        finish 5 src (Z.lor (Z.shiftl (clear_bits 8 first_byte 0xf0 0) (4 * 8)) (rd 1 4 src)) (4 * 7)
      else if first_byte <? 0xfc then
        finish 6 src (Z.lor (Z.shiftl (clear_bits 16 (rd 0 2 src) 0xf8 8) (4 * 8)) (rd 2 4 src)) (5 * 7)
      else if first_byte <? 0xfe then
        finish 7 src (Z.lor (Z.shiftl (clear_bits 32 (rd 0 4 src) 0xfc (3 * 8)) (3 * 8)) (rd 3 4 src)) (6 * 7)
      else if first_byte <? 0xff then finish 8 src (clear_bits 64 (rd 0 8 src) 0xfe (7 * 8)) (7 * 7)
      else finish 9 src (rd 1 8 src) (8 * 7)
  end.
