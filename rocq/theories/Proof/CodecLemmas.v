(** Assembly of the codec lemmas into the property statements. *)
From Verif Require Import Base.Bytes Model.Endian Model.Varint Model.OrderedVarint
  Spec.VarintSpec Spec.OrderedVarintSpec
  Proof.EndianProof Proof.VarintProof Proof.OrderedVarintProof.

Lemma vt_cases t : t = V32 \/ t = V64 -> vt_ok t.
Proof. intros [-> | ->]; [apply V32_ok|apply V64_ok]. Qed.

Lemma varint_round_trip t c v rest : vt_ok t -> vbits t <= 64 -> 0 <= v < 2 ^ vbits t -> bytes rest ->
  let enc := WriteVarint t v in
  bytes enc /\ zlen enc = LengthVarint v /\ 1 <= zlen enc <= Z.of_nat (vmax t) /\
  ReadVarintArray t c (enc ++ rest) = VOk v (length enc) /\
  (forall avail, (1 <= avail <= length (enc ++ rest))%nat ->
     ReadVarintReader t c avail (enc ++ rest) = VOk v (length enc)) /\
  SkipVarintArray t c (enc ++ rest) = length enc.
Proof.
  intros Ht H64 Hv Hr enc. unfold enc.
  pose proof (WriteVarint_bytes t v Ht Hv) as B.
  pose proof (WriteVarint_spec t v Ht Hv) as (W1 & W2 & W3 & W4 & _).
  assert (BB : bytes (WriteVarint t v ++ rest)) by (apply bytes_app; auto).
  split; [exact B|]. split; [symmetry; apply LengthVarint_spec; assumption|].
  split.
  { destruct W1 as (i & b & E & _). unfold zlen. rewrite E in *. rewrite app_length in *. cbn [length] in *. lia. }
  split; [apply ReadVarintArray_Write; assumption|]. split.
  - intros avail Ha. rewrite ReadVarintReader_spec by assumption.
    rewrite <- ReadVarintArray_spec by assumption. apply ReadVarintArray_Write; assumption.
  - rewrite SkipVarintArray_spec, ReadVarintArray_Write by assumption. reflexivity.
Qed.

Lemma varint64_round_trip c v rest : 0 <= v < 2 ^ 64 -> bytes rest ->
  let enc := WriteVarint V64 v in
  bytes enc /\ zlen enc = LengthVarint v /\ 1 <= zlen enc <= 10 /\
  ReadVarintArray V64 c (enc ++ rest) = VOk v (length enc) /\
  (forall avail, (1 <= avail <= length (enc ++ rest))%nat ->
     ReadVarintReader V64 c avail (enc ++ rest) = VOk v (length enc)) /\
  SkipVarintArray V64 c (enc ++ rest) = length enc.
Proof. intros; apply (varint_round_trip V64); try assumption; [apply V64_ok|cbn; lia]. Qed.

Lemma varint32_round_trip c v rest : 0 <= v < 2 ^ 32 -> bytes rest ->
  let enc := WriteVarint V32 v in
  bytes enc /\ zlen enc = LengthVarint v /\ 1 <= zlen enc <= 5 /\
  ReadVarintArray V32 c (enc ++ rest) = VOk v (length enc) /\
  (forall avail, (1 <= avail <= length (enc ++ rest))%nat ->
     ReadVarintReader V32 c avail (enc ++ rest) = VOk v (length enc)) /\
  SkipVarintArray V32 c (enc ++ rest) = length enc.
Proof. intros; apply (varint_round_trip V32); try assumption; [apply V32_ok|cbn; lia]. Qed.

Lemma read_varint_exact t c src : (t = V32 \/ t = V64) -> bytes src ->
  ReadVarintArray t c src <> VFault /\
  (forall v n, ReadVarintArray t c src = VOk v n <->
     exists l rest, src = l ++ rest /\ is_varint l /\ length l = n /\ (n <= vmax t)%nat /\
       v = base128 l /\ v < 2 ^ vbits t /\ (c = true -> is_shortest l)) /\
  (forall avail, (1 <= avail <= length src)%nat ->
     ReadVarintReader t c avail src = ReadVarintArray t c src).
Proof.
  intros Ht Hb. apply vt_cases in Ht. rewrite ReadVarintArray_spec by assumption.
  split; [apply spec_read_not_fault|]. split.
  - intros v n. apply spec_read_iff; assumption.
  - intros avail Ha. apply ReadVarintReader_spec; assumption.
Qed.

Lemma zigzag_both t : (t = V32 \/ t = V64) ->
  (forall v, - 2 ^ (vbits t - 1) <= v < 2 ^ (vbits t - 1) ->
     DecodeVarintSigned t (EncodeVarintSigned t v) = v /\
     EncodeVarintSigned t v = (if v <? 0 then -2 * v - 1 else 2 * v) /\
     0 <= EncodeVarintSigned t v < 2 ^ vbits t) /\
  (forall r, 0 <= r < 2 ^ vbits t ->
     EncodeVarintSigned t (DecodeVarintSigned t r) = r /\
     - 2 ^ (vbits t - 1) <= DecodeVarintSigned t r < 2 ^ (vbits t - 1)).
Proof.
  intros Ht. apply vt_cases in Ht. split.
  - intros v Hv. destruct (zigzag_decode_encode t v Ht Hv). repeat split; try assumption; try lia.
    apply EncodeVarintSigned_eq; assumption.
  - intros r Hr. apply zigzag_encode_decode; assumption.
Qed.

Lemma ordered_varint64_both :
  (forall v rest, 0 <= v < 2 ^ 64 -> bytes rest ->
     ordered_encoding v (WriteOrderedVarint64 v) /\
     zlen (WriteOrderedVarint64 v) = LengthOrderedVarint v /\
     ReadOrderedVarint64 (WriteOrderedVarint64 v ++ rest) = Some (v, rest)) /\
  (forall src v rest, bytes src -> ReadOrderedVarint64 src = Some (v, rest) ->
     src = WriteOrderedVarint64 v ++ rest /\ 0 <= v < 2 ^ 64).
Proof.
  split.
  - intros v rest Hv Hr. split; [apply WriteOrderedVarint64_spec; assumption|].
    split; [symmetry; apply Length64; assumption|]. apply Read_Write64; assumption.
  - intros; apply Write_Read64; assumption.
Qed.

Lemma ordered_varint32_both :
  (forall v rest, 0 <= v < 2 ^ 32 -> bytes rest ->
     ordered_encoding v (WriteOrderedVarint32 v) /\
     zlen (WriteOrderedVarint32 v) = LengthOrderedVarint v /\
     ReadOrderedVarint32 (WriteOrderedVarint32 v ++ rest) = Some (v, rest)) /\
  (forall src v rest, bytes src -> ReadOrderedVarint32 src = Some (v, rest) ->
     src = WriteOrderedVarint32 v ++ rest /\ 0 <= v < 2 ^ 32).
Proof.
  split.
  - intros v rest Hv Hr. assert (0 <= v < 2 ^ 64) by (assert (2 ^ 32 <= 2 ^ 64) by (apply Z.pow_le_mono_r; lia); lia).
    split; [rewrite Write32_64 by assumption; apply WriteOrderedVarint64_spec; assumption|].
    split; [rewrite Write32_64 by assumption; symmetry; apply Length64; assumption|]. apply Read_Write32; assumption.
  - intros; apply Write_Read32; assumption.
Qed.

Lemma fixed_width_all n :
  (forall v rest, 0 <= v < 2 ^ (8 * Z.of_nat n) ->
     ReadLittleEndian n (WriteLittleEndian n v ++ rest) = Some (v, rest) /\
     ReadBigEndian n (WriteBigEndian n v ++ rest) = Some (v, rest) /\
     length (WriteLittleEndian n v) = n /\ length (WriteBigEndian n v) = n /\
     WriteBigEndian n v = rev (WriteLittleEndian n v)) /\
  (forall src v rest, bytes src ->
     (ReadLittleEndian n src = Some (v, rest) ->
        src = WriteLittleEndian n v ++ rest /\ 0 <= v < 2 ^ (8 * Z.of_nat n)) /\
     (ReadBigEndian n src = Some (v, rest) ->
        src = WriteBigEndian n v ++ rest /\ 0 <= v < 2 ^ (8 * Z.of_nat n))) /\
  (forall src, (ReadLittleEndian n src = None <-> (length src < n)%nat) /\
               (ReadBigEndian n src = None <-> (length src < n)%nat)) /\
  (forall a b s t, 0 <= a < 2 ^ (8 * Z.of_nat n) -> 0 <= b < 2 ^ (8 * Z.of_nat n) -> a < b ->
     lex_lt (WriteBigEndian n a ++ s) (WriteBigEndian n b ++ t)).
Proof.
  repeat split; intros.
  - apply ReadLittleEndian_Write; assumption.
  - apply ReadBigEndian_Write; assumption.
  - rewrite WriteLittleEndian_le_bytes; apply le_bytes_length.
  - rewrite WriteBigEndian_be_bytes; unfold be_bytes; rewrite rev_length; apply le_bytes_length.
  - rewrite WriteBigEndian_be_bytes, WriteLittleEndian_le_bytes; reflexivity.
  - eapply WriteLittleEndian_Read; eassumption.
  - eapply WriteLittleEndian_Read; eassumption.
  - eapply WriteLittleEndian_Read; eassumption.
  - eapply WriteBigEndian_Read; eassumption.
  - eapply WriteBigEndian_Read; eassumption.
  - eapply WriteBigEndian_Read; eassumption.
  - unfold ReadLittleEndian in *. destruct (Nat.ltb_spec (length src) n); [assumption|discriminate].
  - unfold ReadLittleEndian in *. destruct (Nat.ltb_spec (length src) n); [reflexivity|lia].
  - unfold ReadBigEndian in *. destruct (Nat.ltb_spec (length src) n); [assumption|discriminate].
  - unfold ReadBigEndian in *. destruct (Nat.ltb_spec (length src) n); [reflexivity|lia].
  - apply WriteBigEndian_order; assumption.
Qed.

Lemma skip_and_count :
  (forall t c src, SkipVarintArray t c src = match ReadVarintArray t c src with VOk _ n => n | _ => 0%nat end) /\
  (forall vs, Forall is_varint vs -> CountVarints (concat vs) = zlen vs).
Proof.
  split; [apply SkipVarintArray_spec|]. intros vs H.
  rewrite CountVarints_spec.
  - induction H as [|l vs (init & b & -> & Hb & Hi) _ IH]; [reflexivity|].
    cbn [concat]. rewrite !filter_app, !zlen_app, IH, zlen_cons.
    assert (F : filter (fun b0 => b0 <? 128) init = []).
    { clear -Hi. induction Hi as [|x init Hx _ IH]; [reflexivity|]. cbn [filter]. destruct (Z.ltb_spec x 128); [lia|apply IH]. }
    rewrite F. cbn [filter]. destruct (Z.ltb_spec b 128); [|lia]. change (zlen [b]) with 1. change (zlen (@nil Z)) with 0. lia.
  - induction H as [|l vs Hl _ IH]; cbn [concat]; [constructor|]. apply bytes_app. split; [apply is_varint_bytes; exact Hl|exact IH].
Qed.
