(** Properties C01-C06: varints, ordered varints, fixed-width integers. *)
From Verif Require Import Base.Bytes Model.Endian Model.Varint Model.OrderedVarint
  Spec.VarintSpec Spec.OrderedVarintSpec
  Proof.EndianProof Proof.VarintProof Proof.OrderedVarintProof Proof.CodecLemmas.

(** C01: writing then reading returns the value and consumes exactly the bytes written, for
    plain and canonical reading, from an array and from a reader whose buffer boundary falls
    anywhere ([avail] bytes are buffered); the length function is exact. *)
Theorem C01_varint64_round_trip : forall (canonical : bool) (v : Z) (rest : list Z),
  0 <= v < 2 ^ 64 -> bytes rest ->
  let enc := WriteVarint V64 v in
  bytes enc /\ zlen enc = LengthVarint v /\ 1 <= zlen enc <= 10 /\
  ReadVarintArray V64 canonical (enc ++ rest) = VOk v (length enc) /\
  (forall avail, (1 <= avail <= length (enc ++ rest))%nat ->
     ReadVarintReader V64 canonical avail (enc ++ rest) = VOk v (length enc)) /\
  SkipVarintArray V64 canonical (enc ++ rest) = length enc.
Proof. exact varint64_round_trip. Qed.
Print Assumptions C01_varint64_round_trip.

Theorem C01_varint32_round_trip : forall (canonical : bool) (v : Z) (rest : list Z),
  0 <= v < 2 ^ 32 -> bytes rest ->
  let enc := WriteVarint V32 v in
  bytes enc /\ zlen enc = LengthVarint v /\ 1 <= zlen enc <= 5 /\
  ReadVarintArray V32 canonical (enc ++ rest) = VOk v (length enc) /\
  (forall avail, (1 <= avail <= length (enc ++ rest))%nat ->
     ReadVarintReader V32 canonical avail (enc ++ rest) = VOk v (length enc)) /\
  SkipVarintArray V32 canonical (enc ++ rest) = length enc.
Proof. exact varint32_round_trip. Qed.
Print Assumptions C01_varint32_round_trip.

Example C01_instance :
  WriteVarint V64 300 = [172; 2] /\
  ReadVarintReader V64 true 2 ([172; 2] ++ [255; 255]) = VOk 300 2 /\
  WriteVarint V64 (2 ^ 64 - 1) = [255; 255; 255; 255; 255; 255; 255; 255; 255; 1].
Proof. vm_compute. auto. Qed.

(** C02: on every byte array, reading succeeds exactly on a well-formed varint prefix whose
    value fits, returns its base-128 value, and never reads outside the array / buffer
    (the outcome [VFault] is impossible); the canonical variant accepts exactly the shortest form. *)
Theorem C02_read_varint_exact : forall (t : vtype) (canonical : bool) (src : list Z),
  (t = V32 \/ t = V64) -> bytes src ->
  ReadVarintArray t canonical src <> VFault /\
  (forall v n, ReadVarintArray t canonical src = VOk v n <->
     exists l rest, src = l ++ rest /\ is_varint l /\ length l = n /\ (n <= vmax t)%nat /\
       v = base128 l /\ v < 2 ^ vbits t /\ (canonical = true -> is_shortest l)) /\
  (forall avail, (1 <= avail <= length src)%nat ->
     ReadVarintReader t canonical avail src = ReadVarintArray t canonical src).
Proof. exact read_varint_exact. Qed.
Print Assumptions C02_read_varint_exact.

Example C02_instance :
  ReadVarintArray V32 false [255; 255; 255; 255; 15] = VOk (2 ^ 32 - 1) 5 /\
  ReadVarintArray V32 false [255; 255; 255; 255; 16] = VFail /\
  ReadVarintArray V64 false [128; 0] = VOk 0 2 /\
  ReadVarintArray V64 true [128; 0] = VFail /\
  ReadVarintArray V64 false [128; 128] = VFail.
Proof. vm_compute. auto. Qed.

(** C02: skipping consumes exactly what reading would (0 on failure), and counting varints in a
    concatenation of varints gives their number. *)
Theorem C02_skip_and_count :
  (forall (t : vtype) (c : bool) (src : list Z), SkipVarintArray t c src =
     match ReadVarintArray t c src with VOk _ n => n | _ => 0%nat end) /\
  (forall vs, Forall is_varint vs -> CountVarints (concat vs) = zlen vs).
Proof. exact skip_and_count. Qed.
Print Assumptions C02_skip_and_count.

Example C02_count_instance : CountVarints (concat [[172; 2]; [5]; [128; 128; 1]]) = 3.
Proof. vm_compute. reflexivity. Qed.

(** C03: zigzag is a bijection between signed and unsigned values, with the documented order. *)
Theorem C03_zigzag : forall t, (t = V32 \/ t = V64) ->
  (forall v, - 2 ^ (vbits t - 1) <= v < 2 ^ (vbits t - 1) ->
     DecodeVarintSigned t (EncodeVarintSigned t v) = v /\
     EncodeVarintSigned t v = (if v <? 0 then -2 * v - 1 else 2 * v) /\
     0 <= EncodeVarintSigned t v < 2 ^ vbits t) /\
  (forall r, 0 <= r < 2 ^ vbits t ->
     EncodeVarintSigned t (DecodeVarintSigned t r) = r /\
     - 2 ^ (vbits t - 1) <= DecodeVarintSigned t r < 2 ^ (vbits t - 1)).
Proof. exact zigzag_both. Qed.
Print Assumptions C03_zigzag.

Example C03_instance :
  map (EncodeVarintSigned V64) [0; -1; 1; -2; 2 ^ 63 - 1; - 2 ^ 63] = [0; 1; 2; 3; 2 ^ 64 - 2; 2 ^ 64 - 1].
Proof. vm_compute. reflexivity. Qed.

(** C04: ordered varints: round trip, documented format, canonicity. *)
Theorem C04_ordered_varint64 : 
  (forall v rest, 0 <= v < 2 ^ 64 -> bytes rest ->
     ordered_encoding v (WriteOrderedVarint64 v) /\
     zlen (WriteOrderedVarint64 v) = LengthOrderedVarint v /\
     ReadOrderedVarint64 (WriteOrderedVarint64 v ++ rest) = Some (v, rest)) /\
  (forall src v rest, bytes src -> ReadOrderedVarint64 src = Some (v, rest) ->
     src = WriteOrderedVarint64 v ++ rest /\ 0 <= v < 2 ^ 64).
Proof. exact ordered_varint64_both. Qed.
Print Assumptions C04_ordered_varint64.

Theorem C04_ordered_varint32 :
  (forall v rest, 0 <= v < 2 ^ 32 -> bytes rest ->
     ordered_encoding v (WriteOrderedVarint32 v) /\
     zlen (WriteOrderedVarint32 v) = LengthOrderedVarint v /\
     ReadOrderedVarint32 (WriteOrderedVarint32 v ++ rest) = Some (v, rest)) /\
  (forall src v rest, bytes src -> ReadOrderedVarint32 src = Some (v, rest) ->
     src = WriteOrderedVarint32 v ++ rest /\ 0 <= v < 2 ^ 32).
Proof. exact ordered_varint32_both. Qed.
Print Assumptions C04_ordered_varint32.

Example C04_instance :
  WriteOrderedVarint64 (2 ^ 45) = [252; 32; 0; 0; 0; 0; 0] /\
  ReadOrderedVarint64 [252; 32; 0; 0; 0; 0; 0; 7] = Some (2 ^ 45, [7]) /\
  ReadOrderedVarint64 [192; 0; 5] = None.
Proof. vm_compute. auto. Qed.

(** C05: the encoding preserves order, whatever follows. *)
Theorem C05_ordered_varint_order : forall a b s t,
  0 <= a < 2 ^ 64 -> 0 <= b < 2 ^ 64 -> a < b ->
  lex_lt (WriteOrderedVarint64 a ++ s) (WriteOrderedVarint64 b ++ t).
Proof. exact ordered_lt. Qed.
Print Assumptions C05_ordered_varint_order.

Example C05_instance : 127 < 128 /\
  WriteOrderedVarint64 127 = [127] /\ WriteOrderedVarint64 128 = [128; 128] /\
  lex_cmp ([127] ++ [255; 255]) ([128; 128] ++ []) = Lt.
Proof. vm_compute. auto. Qed.

(** C06: fixed-width codecs: both directions are inverse for every width [n] in bytes, for
    unsigned and (two's complement) signed values, and big endian preserves order. *)
Theorem C06_fixed_width : forall n : nat, 
  (forall v rest, 0 <= v < 2 ^ (8 * Z.of_nat n) ->
     ReadLittleEndian n (WriteLittleEndian n v ++ rest) = Some (v, rest) /\
     ReadBigEndian n (WriteBigEndian n v ++ rest) = Some (v, rest) /\
     length (WriteLittleEndian n v) = n /\ length (WriteBigEndian n v) = n /\
     WriteBigEndian n v = rev (WriteLittleEndian n v)) /\
  (forall src v rest, bytes src ->
     (ReadLittleEndian n src = Some (v, rest) ->
        src = WriteLittleEndian n v ++ rest /\ 0 <= v < 2 ^ (8 * Z.of_nat n)) /\
     (ReadBigEndian n src = Some (v, rest) ->
        src = WriteBigEndian n v ++ rest /\ 0 <= v < 2 ^ (8 * Z.of_nat n))) /\
  (forall src, (ReadLittleEndian n src = None <-> (length src < n)%nat) /\
               (ReadBigEndian n src = None <-> (length src < n)%nat)) /\
  (forall a b s t, 0 <= a < 2 ^ (8 * Z.of_nat n) -> 0 <= b < 2 ^ (8 * Z.of_nat n) -> a < b ->
     lex_lt (WriteBigEndian n a ++ s) (WriteBigEndian n b ++ t)).
Proof. exact fixed_width_all. Qed.
Print Assumptions C06_fixed_width.

Theorem C06_signed : forall w v, 0 < w -> - 2 ^ (w - 1) <= v < 2 ^ (w - 1) ->
  to_signed w (to_unsigned w v) = v /\ 0 <= to_unsigned w v < 2 ^ w.
Proof. exact to_signed_unsigned. Qed.
Print Assumptions C06_signed.

Example C06_instance :
  WriteLittleEndian 4 0x01020304 = [4; 3; 2; 1] /\ WriteBigEndian 4 0x01020304 = [1; 2; 3; 4] /\
  ReadBigEndian 2 [1; 2; 9] = Some (258, [9]).
Proof. vm_compute. auto. Qed.
