(** The chunk decoder as a list of records with a cursor. *)
From Verif Require Import Base.Bytes Model.Varint Model.Endian Model.Block Model.Chunk Model.SimpleChunk Model.ChunkDecoder
  Spec.RecordsSpec Spec.SimpleLink Spec.FileSpec Spec.ChunkLink Proof.EndianProof Proof.VarintProof Proof.CodecLemmas Proof.BlockProof Proof.FileProof Proof.ChunkPropsLemmas Proof.SimpleChunkProof.

Definition holds (rs : list (list Z)) (i : Z) : decoder :=
  MkDecoder (ends 0 rs) (concat rs) (total (ztake i rs)) i true.

Lemma nth_ends rs : forall start i r, nth_error rs i = Some r ->
  nth_error (ends start rs) i = Some (start + total (firstn (S i) rs)).
Proof.
  induction rs as [|x rs IH]; intros start i r E; [destruct i; discriminate E|].
  destruct i as [|i]; cbn [nth_error ends firstn] in *.
  - rewrite total_cons. change (total []) with 0. rewrite Z.add_0_r. reflexivity.
  - rewrite (IH _ _ _ E). rewrite (total_cons x). rewrite Z.add_assoc. reflexivity.
Qed.
Lemma firstn_snoc {A} (l : list A) : forall i x, nth_error l i = Some x -> firstn (S i) l = firstn i l ++ [x].
Proof. induction l as [|y l IH]; intros [|i] x E; try discriminate E; cbn in *; [injection E as ->; reflexivity|]. rewrite <- (IH i x E). reflexivity. Qed.
Lemma skipn_nth {A} (l : list A) : forall i x, nth_error l i = Some x -> skipn i l = x :: skipn (S i) l.
Proof. induction l as [|y l IH]; intros [|i] x E; try discriminate E; cbn in *; [injection E as ->; reflexivity|]. rewrite (IH i x E). reflexivity. Qed.
Lemma total_take_le i rs : total (ztake i rs) <= total rs.
Proof. rewrite <- (ztake_zdrop i rs) at 2. rewrite total_app. pose proof (total_nonneg (zdrop i rs)). lia. Qed.
Lemma ztake_snoc {A} (l : list A) i x : 0 <= i -> nth_error l (Z.to_nat i) = Some x -> ztake (i + 1) l = ztake i l ++ [x].
Proof. intros I E. unfold ztake. replace (Z.to_nat (i + 1)) with (S (Z.to_nat i)) by lia. apply firstn_snoc, E. Qed.
Lemma concat_slice rs i r : 0 <= i -> nth_error rs (Z.to_nat i) = Some r -> zslice (total (ztake i rs)) (zlen r) (concat rs) = r.
Proof.
  intros I E. unfold zslice, total. rewrite <- (ztake_zdrop i rs) at 2. rewrite concat_app, zdrop_app_exact.
  assert (D : exists t, zdrop i rs = r :: t).
  { unfold zdrop. destruct (nth_error_split rs (Z.to_nat i) E) as (a & b & -> & L). exists b. rewrite <- L, skipn_app, skipn_all, Nat.sub_diag. reflexivity. }
  destruct D as [t ->]. cbn [concat]. apply ztake_app_exact.
Qed.

Lemma ReadRecord_holds rs i : 0 <= i -> ReadRecord (holds rs i) =
  match nth_error rs (Z.to_nat i) with
  | Some r => Some (Some r, holds rs (i + 1))
  | None => if i =? zlen rs then Some (None, holds rs i) else None
  end.
Proof.
  intros I. unfold ReadRecord, holds. cbn [dc_ok dc_index dc_limits dc_values dc_pos negb orb]. unfold dc_num_records. cbn [dc_limits]. rewrite zlen_ends.
  destruct (nth_error rs (Z.to_nat i)) as [r|] eqn:E.
  - assert (L : (Z.to_nat i < length rs)%nat) by (apply nth_error_Some; rewrite E; discriminate).
    replace (i =? zlen rs) with false by (symmetry; apply Z.eqb_neq; unfold zlen; lia).
    rewrite (nth_ends _ _ _ _ E), Z.add_0_l. fold (ztake (Z.of_nat (S (Z.to_nat i))) rs).
    replace (firstn (S (Z.to_nat i)) rs) with (ztake (i + 1) rs) by (unfold ztake; f_equal; lia).
    rewrite (ztake_snoc _ _ _ I E), total_app, total_cons. change (total []) with 0. rewrite Z.add_0_r.
    pose proof (zlen_nonneg r). replace (total (ztake i rs) + zlen r <? total (ztake i rs)) with false by (symmetry; apply Z.ltb_ge; lia).
    change (zlen (concat rs)) with (total rs).
    assert (LE : total (ztake i rs) + zlen r <= total rs).
    { pose proof (total_take_le (i + 1) rs) as T. rewrite (ztake_snoc _ _ _ I E), total_app, total_cons in T. change (total []) with 0 in T. lia. }
    replace (total rs <? total (ztake i rs) + zlen r) with false by (symmetry; apply Z.ltb_ge; lia). cbn [orb].
    replace (total (ztake i rs) + zlen r - total (ztake i rs)) with (zlen r) by lia. rewrite (concat_slice _ _ _ I E). reflexivity.
  - destruct (i =? zlen rs) eqn:EQ; [reflexivity|].
    assert (nth_error (ends 0 rs) (Z.to_nat i) = None) as ->; [|reflexivity].
    apply nth_error_None. apply nth_error_None in E. pose proof (zlen_ends 0 rs) as ZE. unfold zlen in ZE. lia.
Qed.

Lemma SetIndex_holds rs i j : 0 <= j -> SetIndex j (holds rs i) = Some (holds rs (Z.min j (zlen rs))).
Proof.
  intros J. unfold SetIndex, holds. cbn [dc_limits dc_values dc_ok]. unfold dc_num_records. cbn [dc_limits]. rewrite zlen_ends.
  pose proof (zlen_nonneg rs). cbv zeta. remember (Z.min j (zlen rs)) as k eqn:Ek.
  destruct (Z.eqb_spec k 0) as [->|N]; [reflexivity|].
  destruct (nth_error rs (Z.to_nat (k - 1))) as [r|] eqn:E.
  2:{ apply nth_error_None in E. unfold zlen in *. lia. }
  rewrite (nth_ends _ _ _ _ E), Z.add_0_l. replace (firstn (S (Z.to_nat (k - 1))) rs) with (ztake k rs) by (unfold ztake; f_equal; lia).
  change (zlen (concat rs)) with (total rs). pose proof (total_take_le k rs).
  replace (total rs <? total (ztake k rs)) with false by (symmetry; apply Z.ltb_ge; lia). reflexivity.
Qed.

Lemma ReadAllRecords_holds rs : forall fuel i, 0 <= i <= zlen rs -> (Z.to_nat (zlen rs - i) < fuel)%nat ->
  ReadAllRecords fuel (holds rs i) = Some (zdrop i rs, holds rs (zlen rs)).
Proof.
  induction fuel as [|fuel IH]; intros i I F; [lia|]. cbn [ReadAllRecords]. rewrite ReadRecord_holds by lia.
  destruct (nth_error rs (Z.to_nat i)) as [r|] eqn:E.
  - assert (L : (Z.to_nat i < length rs)%nat) by (apply nth_error_Some; rewrite E; discriminate).
    rewrite IH; [|unfold zlen in *; lia|unfold zlen in *; lia].
    do 2 f_equal. unfold zdrop. replace (Z.to_nat (i + 1)) with (S (Z.to_nat i)) by lia.
    rewrite (skipn_nth _ _ _ E). reflexivity.
  - apply nth_error_None in E. assert (i = zlen rs) as -> by (unfold zlen in *; lia). rewrite Z.eqb_refl.
    rewrite zdrop_all by lia. reflexivity.
Qed.

Lemma holds_0 rs : MkDecoder (ends 0 rs) (concat rs) 0 0 true = holds rs 0.
Proof. reflexivity. Qed.

(** A chunk which decodes to given records. *)
Section Decode.
  Variable hash : list Z -> Z.
  Hypothesis hash_range : forall l, 0 <= hash l < 2 ^ 64.
  Variable compress : Z -> list Z -> list Z.
  Variable decompress : Z -> list Z -> option (list Z).
  Variable transpose_decode : list Z -> Z -> Z -> option (list Z * list Z).
  Hypothesis compress_bytes : forall t l, bytes l -> bytes (compress t l).
  Hypothesis round : forall t l, bytes l -> decompress t (compress t l) = Some l.

  Lemma decode_simple ct rs data k n d : known_compression ct = true -> Forall bytes rs ->
    zlen rs <= kMaxNumRecords -> total rs < 2 ^ 64 -> EncodeAndClose compress ct (enc_of rs) = Some (data, k, n, d) ->
    zlen data < 2 ^ 64 -> zlen (size_bytes rs) < 2 ^ 64 ->
    chunk_ok (Chunk k n d data) /\ bytes data /\
    Decode decompress transpose_decode (mk_chunk hash (Chunk k n d data)) = (true, holds rs 0).
  Proof.
    intros K B N T E D ZS.
    destruct (simple_decode_ok compress decompress compress_bytes round ct rs data k n d K B T E D ZS) as (-> & -> & -> & BD & SD).
    assert (CO : chunk_ok (Chunk kSimple (zlen rs) (total rs) data)).
    { unfold chunk_ok. cbn [k_type k_nrec k_dsize k_data]. pose proof (zlen_nonneg rs). pose proof (total_nonneg rs). unfold kMaxNumRecords, kSimple in *. lia. }
    split; [exact CO|]. split; [exact BD|].
    destruct (chunk_header_fields hash (Chunk kSimple (zlen rs) (total rs) data) hash_range CO) as (_ & _ & _ & _ & _ & FT & FN & FD & _).
    cbn [k_type k_nrec k_dsize k_data] in *.
    unfold Decode, mk_chunk. cbn [c_header c_data k_type k_nrec k_dsize k_data]. unfold Parse. rewrite FT, FN, FD.
    change (kSimple =? kFileSignature) with false. change (kSimple =? kFileMetadata) with false. change (kSimple =? kPadding) with false. change (kSimple =? kSimple) with true.
    cbv iota. rewrite SD. change (zlen (concat rs)) with (total rs). rewrite Z.ltb_irrefl.
    rewrite zdrop_all by (unfold total; lia). rewrite ztake_all by (unfold total; lia). reflexivity.
  Qed.

End Decode.
Section DecodeAny.
  Variable decompress : Z -> list Z -> option (list Z).
  Variable transpose_decode : list Z -> Z -> Z -> option (list Z * list Z).
  Hypothesis decompress_bytes : forall t l l', decompress t l = Some l' -> bytes l'.

  (** Decoding an arbitrary chunk which is not transposed. *)
  Lemma decode_any c dec : bytes (c_header c) -> zlen (c_header c) = 40 -> bytes (c_data c) -> ch_chunk_type (c_header c) <> kTransposed ->
    Decode decompress transpose_decode c = (true, dec) ->
    exists rs, dec = holds rs 0 /\ zlen rs = ch_num_records (c_header c) /\
      (ch_chunk_type (c_header c) = kSimple -> total rs = ch_decoded_data_size (c_header c) /\
         exists ct m part1 part2, c_data c = ct :: m ++ part1 ++ part2 /\ Decompressor decompress ct part2 = Some (concat rs)) /\
      (ch_chunk_type (c_header c) <> kSimple -> rs = []).
  Proof.
    intros BH LH BD NT E. destruct c as [h data]. cbn [c_header c_data] in *. unfold Decode in E. cbn [c_header c_data] in E.
    assert (RN : 0 <= ch_num_records h) by (unfold ch_num_records; apply Z.shiftr_nonneg; apply (proj1 (ReadLE8_range (skipn 24 h) (bytes_zdrop 24 h BH)))).
    assert (RD : 0 <= ch_decoded_data_size h < 2 ^ 64) by (exact (ReadLE8_range (skipn 32 h) (bytes_zdrop 32 h BH))).
    unfold Parse in E.
    assert (NIL : forall b : bool, (if b then Some ([], []) else None) = Some ([] : list Z, [] : list Z) -> b = true) by (intros []; congruence).
    destruct (Z.eqb_spec (ch_chunk_type h) kFileSignature) as [T|T1].
    { destruct (Z.eqb_spec (ch_data_size h) 0); [|discriminate E]. destruct (Z.eqb_spec (ch_num_records h) 0) as [N0|]; [|discriminate E].
      destruct (Z.eqb_spec (ch_decoded_data_size h) 0); [|discriminate E]. injection E as <-. exists []. rewrite N0, T. repeat split; try discriminate. }
    destruct (Z.eqb_spec (ch_chunk_type h) kFileMetadata) as [T|T2].
    { destruct (Z.eqb_spec (ch_num_records h) 0) as [N0|]; [|discriminate E]. injection E as <-. exists []. rewrite N0, T. repeat split; try discriminate. }
    destruct (Z.eqb_spec (ch_chunk_type h) kPadding) as [T|T3].
    { destruct (Z.eqb_spec (ch_num_records h) 0) as [N0|]; [|discriminate E].
      destruct (Z.eqb_spec (ch_decoded_data_size h) 0); [|discriminate E]. injection E as <-. exists []. rewrite N0, T. repeat split; try discriminate. }
    destruct (Z.eqb_spec (ch_chunk_type h) kSimple) as [T|T4].
    - destruct (SimpleDecoder_Decode decompress data (ch_num_records h) (ch_decoded_data_size h)) as [[limits values]|] eqn:SD; [|discriminate E].
      destruct (simple_decode_sound decompress decompress_bytes _ _ _ _ _ BD RN RD SD) as (ct & m & p1 & p2 & DE & _ & D2 & LN & SP).
      destruct (Z.ltb_spec (zlen values) (ch_decoded_data_size h)); [discriminate E|].
      destruct (zdrop (ch_decoded_data_size h) values) eqn:DR; [|discriminate E]. injection E as <-.
      assert (VL : zlen values = ch_decoded_data_size h).
      { assert (L : zlen (zdrop (ch_decoded_data_size h) values) = 0) by (rewrite DR; reflexivity). rewrite zlen_zdrop in L. lia. }
      destruct (SP values VL) as (rs & EN & CO). exists rs. rewrite ztake_all by lia. rewrite <- EN, <- CO. split; [reflexivity|].
      split; [rewrite <- LN, <- EN; symmetry; apply zlen_ends|]. split; [|congruence]. intros _. split; [unfold total; rewrite CO; exact VL|].
      exists ct, m, p1, p2. split; [exact DE|]. rewrite CO. exact D2.
    - destruct (Z.eqb_spec (ch_chunk_type h) kTransposed) as [T|_]; [contradiction|].
      destruct (Z.eqb_spec (ch_num_records h) 0) as [N0|]; [|discriminate E]. injection E as <-. exists []. rewrite N0.
      repeat split; try contradiction.
  Qed.
End DecodeAny.

Lemma zlen_size_bytes rs : total rs < 2 ^ 64 -> zlen (size_bytes rs) <= 10 * zlen rs.
Proof.
  induction rs as [|r rs IH]; intros T; [cbn; lia|]. rewrite total_cons in T. pose proof (zlen_nonneg r). pose proof (total_nonneg rs).
  cbn [size_bytes flat_map]. fold (size_bytes rs). rewrite zlen_app, zlen_cons.
  destruct (varint64_round_trip true (zlen r) [] ltac:(lia) (Forall_nil _)) as (_ & _ & R & _). specialize (IH ltac:(lia)). lia.
Qed.

Lemma simple_round_trip hash compress decompress transpose_decode ct calls : (forall l, 0 <= hash l < 2 ^ 64) ->
  (forall t l, bytes l -> bytes (compress t l)) -> (forall t l, bytes l -> decompress t (compress t l) = Some l) ->
  known_compression ct = true -> Forall bytes (all_added calls) ->
  zlen (all_added calls) < 2 ^ 56 -> total (all_added calls) < 2 ^ 64 ->
  let rs := all_added calls in
  exists data,
    EncodeAndClose compress ct (add_all add calls NewEncoder) = Some (data, kSimple, zlen rs, total rs) /\
    Deferred_EncodeAndClose compress ct (add_all add_deferred calls NewDeferred) = Some (data, kSimple, zlen rs, total rs) /\
    (zlen data < 2 ^ 64 -> exists dec,
       Decode decompress transpose_decode (mk_chunk hash (Chunk kSimple (zlen rs) (total rs) data)) = (true, dec) /\
       ReadAllRecords (S (length rs)) dec = Some (rs, holds rs (zlen rs))).
Proof.
  intros HR CB RD K B N T rs. fold rs in B, N, T. assert (NM : zlen rs <= kMaxNumRecords) by (unfold kMaxNumRecords; lia).
  assert (E1 : add_all add calls NewEncoder = enc_of rs) by (apply (add_all_from calls []); cbn [app]; assumption).
  assert (E2 : add_all add_deferred calls NewDeferred = def_of rs) by (apply (add_all_deferred_from calls []); cbn [app]; assumption).
  rewrite E1, E2. unfold Deferred_EncodeAndClose, def_of. cbn [d_ok d_records d_limits negb].
  change NewEncoder with (enc_of []). rewrite (AddRecords_ok rs []) by assumption. cbn [app].
  assert (EX : exists data, EncodeAndClose compress ct (enc_of rs) = Some (data, kSimple, zlen rs, total rs)) by (unfold EncodeAndClose, enc_of; cbn [e_ok negb e_num e_size]; eauto).
  destruct EX as [data E]. exists data. split; [exact E|]. split; [exact E|]. intros D.
  fold rs in N, T. assert (DE : Decode decompress transpose_decode (mk_chunk hash (Chunk kSimple (zlen rs) (total rs) data)) = (true, holds rs 0)). { apply (decode_simple hash HR compress decompress transpose_decode CB RD ct rs data); try assumption. pose proof (zlen_size_bytes rs T). lia. }
  exists (holds rs 0). split; [exact DE|]. apply (ReadAllRecords_holds rs (S (length rs)) 0); unfold zlen; lia.
Qed.

Lemma decode_arbitrary decompress transpose_decode c dec : (forall t l l', decompress t l = Some l' -> bytes l') ->
  bytes (c_header c) -> zlen (c_header c) = 40 -> bytes (c_data c) -> ch_chunk_type (c_header c) <> kTransposed ->
  Decode decompress transpose_decode c = (true, dec) ->
  exists rs, zlen rs = ch_num_records (c_header c) /\
    (exists d, ReadAllRecords (S (length rs)) dec = Some (rs, d)) /\
    (forall j, 0 <= j -> exists d d', SetIndex j dec = Some d /\ ReadAllRecords (S (length rs)) d = Some (zdrop j rs, d')) /\
    (ch_chunk_type (c_header c) = kSimple -> total rs = ch_decoded_data_size (c_header c) /\
       exists ct m part1 part2, c_data c = ct :: m ++ part1 ++ part2 /\ Decompressor decompress ct part2 = Some (concat rs)) /\
    (ch_chunk_type (c_header c) <> kSimple -> rs = []).
Proof.
  intros DB BH LH BD NT E. destruct (decode_any decompress transpose_decode DB c dec BH LH BD NT E) as (rs & -> & LN & A & B).
  exists rs. split; [exact LN|]. split.
  { exists (holds rs (zlen rs)). apply (ReadAllRecords_holds rs (S (length rs)) 0); unfold zlen; lia. }
  split; [|split; assumption]. intros j J. exists (holds rs (Z.min j (zlen rs))), (holds rs (zlen rs)). split; [apply SetIndex_holds, J|].
  pose proof (zlen_nonneg rs). rewrite ReadAllRecords_holds by (unfold zlen in *; lia). do 2 f_equal.
  destruct (Z.le_gt_cases j (zlen rs)); [f_equal; lia|]. rewrite !zdrop_all by lia. reflexivity.
Qed.
