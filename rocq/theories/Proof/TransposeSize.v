(** The size of a transposed chunk. *)
From Coq Require Import Permutation.
From Verif Require Import Base.Bytes Model.Endian Model.Varint Model.Chunk Model.SimpleChunk Model.TransposeEncoder Model.TransposeDecoder.
From Verif Require Import Spec.VarintSpec Spec.RecordsSpec Proof.CodecLemmas Proof.VarintProof Proof.SimpleChunkProof.
From Verif Require Import Proof.TransposeColumns Proof.TransposeMessages Proof.TransposeBuffers Proof.TransposePath Proof.TransposeLoops Proof.TransposeStates Proof.TransposeMachine Proof.TransposeRound.

Section Size.
Variable compress : Z -> list Z -> list Z.
Variable decompress : Z -> list Z -> option (list Z).
Hypothesis compress_bytes : forall t l, bytes l -> bytes (compress t l).
Hypothesis round : forall t l, bytes l -> decompress t (compress t l) = Some l.
Hypothesis compress_size : forall t l, bytes l -> zlen (compress t l) <= 2 * zlen l + 2 ^ 7.

Lemma encode_size ct l : bytes l -> zlen l < 2 ^ 64 -> zlen (Compressor_EncodeAndClose compress ct l) <= 2 * zlen l + 138.
Proof.
  intros B L. pose proof (zlen_nonneg l). unfold Compressor_EncodeAndClose, compressed. rewrite zlen_app. destruct (ct =? kNone); [change (zlen (@nil Z)) with 0; lia|].
  pose proof (V64_len (zlen l) ltac:(lia)). pose proof (compress_size ct l B). lia.
Qed.
Lemma data_size ct groups : Forall bytes (concat groups) -> zlen (concat (concat groups)) < 2 ^ 64 ->
  zlen (concat (map (fun g => Compressor_EncodeAndClose compress ct (concat g)) groups)) <= 2 * zlen (concat (concat groups)) + 138 * zlen groups.
Proof.
  induction groups as [|g groups IH]; intros B L; [cbn; lia|]. cbn [concat map] in *. rewrite concat_app in *. rewrite zlen_app in *. rewrite zlen_cons, zlen_app. apply Forall_app in B. destruct B as [B1 B2].
  pose proof (zlen_nonneg (concat g)). pose proof (zlen_nonneg (concat (concat groups))). specialize (IH B2 ltac:(lia)).
  pose proof (encode_size ct (concat g) (bytes_concat _ B1) ltac:(lia)). lia.
Qed.

Lemma columns_encoded order o rs c data : (forall t l, Permutation (order t l) l) -> known_compression (o_ct o) = true ->
  add_records rs 0 0 no_columns = Some c -> wf c -> zlen (c_encoded c) + zlen (c_tags c) < 2 ^ 30 -> zlen (all_data c) < 2 ^ 32 -> zlen (concat (all_data c)) < 2 ^ 40 ->
  Forall bytes (all_data c) -> TransposeEncode compress order o rs = Some data ->
  zlen data <= 500 + 178 * zlen (all_data c) + 192 * zlen (c_encoded c) + 64 * zlen (c_tags c) + 2 * zlen (concat (all_data c)).
Proof.
  intros OP K EC W SZ A2 A1 A4 TE.
  pose proof (zlen_nonneg (c_tags c)). pose proof (zlen_nonneg (c_encoded c)).
  destruct (machine_total order c OP W ltac:(lia)) as (M & T & T' & p & w & E1 & E2 & E3 & E4 & E5 & E6 & E7 & E8 & E9 & E10 & E11).
  destruct (states_to_write_total c T' (length M) M W E5) as (fields & E12 & E13 & E14).
  destruct (WriteBuffers_total compress (o_ct o) o c W eq_refl) as (hb & bdata & E15).
  destruct (WriteBuffers_ok compress (o_ct o) o c hb bdata W eq_refl E15) as (groups & G1 & G2 & G3 & G4 & G5).
  set (header := written_header hb M fields p).
  assert (ED : data = byte_cast (o_ct o) :: Compressor_LengthPrefixed compress (o_ct o) header ++ bdata ++ Compressor_EncodeAndClose compress (o_ct o) w).
  { unfold TransposeEncode in TE. rewrite EC in TE. cbv zeta in TE. rewrite E1 in TE. unfold WriteStatesAndData in TE. replace (2 ^ 31 <=? zlen M) with false in TE by (symmetry; apply Z.leb_gt; lia).
    rewrite E2, E15, E12 in TE. cbv zeta in TE. rewrite E6, E8 in TE. injection TE as <-. reflexivity. }
  assert (GR : Forall bytes (concat groups)) by (rewrite G1; exact A4).
  pose proof (data_size (o_ct o) groups GR ltac:(rewrite G1; lia)) as DS. rewrite <- G4, G1 in DS.
  pose proof (groups_le compress (o_ct o) decompress compress_bytes round K _ groups G3) as GL. rewrite G1 in GL.
  pose proof (zlen_nonneg groups) as GN. pose proof (zlen_nonneg (all_data c)) as AN. pose proof (zlen_nonneg (concat (all_data c))) as CN.
  assert (MR : 0 <= zlen M < 2 ^ 32) by (pose proof (zlen_nonneg M); lia). assert (PR : 0 <= Z.of_nat p < 2 ^ 32) by (unfold zlen in MR; lia).
  assert (NB : (length (buffer_ids c) <= length (all_data c))%nat) by (unfold all_data, buffer_ids; rewrite app_length, !map_length; lia).
  destruct (parse_nodes_ok c T' (length (all_data c)) (length M) (wf_tags _ W) NB A2 ltac:(unfold zlen in *; lia) M fields (WriteVarint V32 (Z.of_nat p)) E12 E4 (le_n _))
    as (F1 & F2 & F3 & F4 & F5 & F6 & _); [apply V32_bytes; exact PR|].
  assert (FL : zlen fields = zlen M) by (unfold zlen; lia).
  assert (Z1 : Forall (fun g => 0 <= zlen (Compressor_EncodeAndClose compress (o_ct o) (concat g)) < 2 ^ 64) groups).
  { apply Forall_forall. intros g Hg. split; [apply zlen_nonneg|]. apply (Z.le_lt_trans _ (zlen bdata)); [|lia]. rewrite G4. apply in_concat_le. apply (in_map (fun g => Compressor_EncodeAndClose compress (o_ct o) (concat g))), Hg. }
  assert (Z2 : Forall (fun b : list Z => 0 <= zlen b < 2 ^ 64) (concat groups)).
  { apply Forall_forall. intros b Hb. split; [apply zlen_nonneg|]. apply (Z.le_lt_trans _ (zlen (concat (concat groups)))); [apply in_concat_le, Hb|]. rewrite G1. lia. }
  assert (BV : forall (A : Type) (f : A -> Z) t m l, vt_ok t -> vbits t = m -> Forall (fun a => 0 <= f a < 2 ^ m) l -> bytes (flat_map (fun a => WriteVarint t (f a)) l)).
  { intros A f t m l V <- F. induction F as [|a l Ha F IH]; [constructor|]. cbn [flat_map]. apply bytes_app. split; [|exact IH]. apply is_varint_bytes. apply (WriteVarint_spec t (f a) V Ha). }
  assert (BH : bytes header).
  { unfold header, written_header. rewrite G5, !bytes_app. rewrite bytes_app in F6. destruct F6 as [F6 F7].
    repeat split; try assumption; try (apply V32_bytes; lia).
    - apply V32_bytes. rewrite G1. lia.
    - apply (BV _ (fun g => zlen (Compressor_EncodeAndClose compress (o_ct o) (concat g))) V64 64 _ V64_ok eq_refl Z1).
    - apply (BV _ (fun b : list Z => zlen b) V64 64 _ V64_ok eq_refl Z2).
    - apply (BV _ w_tag V32 32 _ V32_ok eq_refl F1).
    - apply (BV _ w_base V32 32 _ V32_ok eq_refl F2). }
  assert (HS : zlen header <= 20 + 20 * zlen (all_data c) + 16 * zlen M).
  { unfold header, written_header. rewrite G5, !zlen_app.
    pose proof (V32_len (zlen groups) ltac:(lia)). pose proof (V32_len (zlen (concat groups)) ltac:(rewrite G1; lia)). pose proof (V32_len (zlen M) MR). pose proof (V32_len (Z.of_nat p) PR).
    pose proof (flat_len _ (fun g => WriteVarint V64 (zlen (Compressor_EncodeAndClose compress (o_ct o) (concat g)))) 10 groups ltac:(eapply Forall_impl; [|exact Z1]; intros g; apply V64_len)) as Y1.
    pose proof (flat_len _ (fun b : list Z => WriteVarint V64 (zlen b)) 10 (concat groups) ltac:(eapply Forall_impl; [|exact Z2]; intros b; apply V64_len)) as Y2.
    pose proof (flat_len _ (fun f => WriteVarint V32 (w_tag f)) 5 fields ltac:(eapply Forall_impl; [|exact F1]; intros f; apply V32_len)) as Y3.
    pose proof (flat_len _ (fun f => WriteVarint V32 (w_base f)) 5 fields ltac:(eapply Forall_impl; [|exact F2]; intros f; apply V32_len)) as Y4.
    assert (Y5 : zlen (flat_map w_subtype fields) <= zlen fields).
    { rewrite F5. pose proof (filter_length_le counts_subtype (map w_tag fields)) as X. rewrite map_length in X. unfold zlen. lia. }
    assert (Y6 : zlen (flat_map (fun f => flat_map (WriteVarint V32) (w_buffer f)) fields) <= 5 * zlen fields).
    { apply flat_len. eapply Forall_impl; [|exact E14]. intros f [-> |(i & -> & Hi)]; [cbn; lia|]. cbn [flat_map]. rewrite app_nil_r. apply V32_len. unfold zlen in *. lia. }
    rewrite G1 in *. lia. }
  pose proof (encode_size (o_ct o) header BH ltac:(lia)) as EH. pose proof (encode_size (o_ct o) w E9 ltac:(lia)) as EW.
  pose proof (zlen_nonneg (Compressor_EncodeAndClose compress (o_ct o) header)) as EN.
  rewrite ED, (length_prefixed compress decompress compress_bytes round) by (try assumption; lia). rewrite zlen_cons, !zlen_app. rewrite G4 in DS |- *.
  pose proof (V64_len (zlen (Compressor_EncodeAndClose compress (o_ct o) header)) ltac:(lia)). lia.
Qed.
End Size.

From Verif Require Import Model.RecordWriter Model.RecordTranspose Spec.SessionSpec.
(** The transposed encoding is one of the codecs for which records are known to survive. *)
Lemma transposed_codecs compress decompress order bucket_size :
  (forall t l, bytes l -> bytes (compress t l)) -> (forall t l, bytes l -> decompress t (compress t l) = Some l) ->
  (forall t l, bytes l -> zlen (compress t l) <= 2 * zlen l + 2 ^ 7) -> (forall t l, Permutation (order t l) l) ->
  codecs compress decompress (transposed compress order bucket_size) (untransposed decompress).
Proof.
  intros CB CR CS OP.
  assert (G : forall o rs, known_compression (o_compression o) = true -> Forall bytes rs -> zlen rs + 2 * zlen (concat rs) < 2 ^ 29 ->
     let data := transposed compress order bucket_size o rs in
     zlen data <= 4096 * (zlen rs + zlen (concat rs)) + 2 ^ 12 /\ untransposed decompress data (zlen rs) (zlen (concat rs)) = Some (ends 0 rs, concat rs)).
  { intros o rs K B L. pose proof (zlen_nonneg rs). pose proof (zlen_nonneg (concat rs)).
    set (to := {| o_ct := o_compression o; o_bucket_size := bucket_size o |}).
    destruct (transpose_round compress decompress order to rs CB CR OP K B L) as (data & E & R).
    destruct (columns_ok rs B L) as (c & EC & W & SZ & _). pose proof SZ as (_ & S2 & S3 & S4). destruct (all_data_size c _ _ W SZ) as (A1 & A2 & A3 & A4).
    pose proof (columns_encoded compress decompress CB CR CS order to rs c data OP K EC W ltac:(lia) ltac:(lia) ltac:(lia) A4 E) as X.
    cbv zeta. unfold transposed, untransposed. fold to. rewrite E. split; [lia|]. apply R. lia. }
  constructor; [exact CB|exact CR|exact CS| |]; intros o rs K B L; destruct (G o rs K B L); assumption.
Qed.
