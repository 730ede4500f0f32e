(** Block arithmetic lemmas. *)
From Verif Require Import Base.Bytes Model.Endian Model.Block Model.Chunk Spec.BlockSpec.

Lemma u64_small x : 0 <= x < 2 ^ 64 -> u64 x = x.
Proof. intros; unfold u64; apply Z.mod_small; assumption. Qed.
Lemma u64_range x : 0 <= u64 x < 2 ^ 64.
Proof. unfold u64; apply Z.mod_pos_bound; lia. Qed.

(** Unfolds the constants and removes div/mod. *)
Ltac blk := unfold kBlockSize, kUsableBlockSize, BlockHeaderSize, ChunkHeaderSize in *.
Ltac dml := Z.div_mod_to_equations; lia.

(** *** zseq *)
Lemma zlen_zseq a n : zlen (zseq a n) = Z.max 0 n.
Proof. unfold zseq. rewrite zlen_map. unfold zlen. rewrite seq_length. lia. Qed.
Lemma zseq_nonpos a n : n <= 0 -> zseq a n = [].
Proof. intros; unfold zseq. replace (Z.to_nat n) with 0%nat by lia. reflexivity. Qed.
Lemma zseq_app a n m : 0 <= n -> 0 <= m -> zseq a (n + m) = zseq a n ++ zseq (a + n) m.
Proof.
  intros. unfold zseq. replace (Z.to_nat (n + m)) with (Z.to_nat n + Z.to_nat m)%nat by lia.
  rewrite seq_app, map_app. f_equal. rewrite Nat.add_0_l.
  assert (G : forall k j, map (fun i => a + Z.of_nat i) (seq (Z.to_nat n + k) j)
                        = map (fun i => a + n + Z.of_nat i) (seq k j)).
  { intros k j; revert k. induction j as [|j IH]; intros k; [reflexivity|]. cbn [seq map].
    f_equal; [lia|]. rewrite <- IH. replace (Z.to_nat n + S k)%nat with (S (Z.to_nat n + k)) by lia. reflexivity. }
  rewrite <- G. rewrite Nat.add_0_r. reflexivity.
Qed.
Lemma zseq_1 a : zseq a 1 = [a].
Proof. unfold zseq. change (Z.to_nat 1) with 1%nat. cbn [seq map]. f_equal; try lia. Qed.
Lemma zseq_S a n : 0 <= n -> zseq a (n + 1) = zseq a n ++ [a + n].
Proof. intros. rewrite zseq_app, zseq_1 by lia. reflexivity. Qed.
Lemma zseq_cons a n : 0 < n -> zseq a n = a :: zseq (a + 1) (n - 1).
Proof. intros. replace n with (1 + (n - 1)) at 1 by lia. rewrite zseq_app, zseq_1 by lia. reflexivity. Qed.
Lemma in_zseq x a n : In x (zseq a n) <-> a <= x < a + n.
Proof.
  unfold zseq. rewrite in_map_iff. split.
  - intros (i & <- & Hi). apply in_seq in Hi. lia.
  - intros H. exists (Z.to_nat (x - a)). split; [lia|]. apply in_seq. lia.
Qed.
Lemma ztake_zseq k a n : k <= n -> ztake k (zseq a n) = zseq a k.
Proof.
  intros H. destruct (Z_le_gt_dec k 0); [rewrite ztake_nonpos, zseq_nonpos by lia; reflexivity|].
  replace n with (k + (n - k)) by lia. rewrite zseq_app by lia.
  rewrite ztake_app_l by (rewrite zlen_zseq; lia). apply ztake_all. rewrite zlen_zseq; lia.
Qed.
Lemma zdrop_zseq k a n : 0 <= k -> zdrop k (zseq a n) = zseq (a + k) (n - k).
Proof.
  intros H. destruct (Z_le_gt_dec n k); [rewrite (zseq_nonpos (a+k)), zdrop_all by (rewrite ?zlen_zseq; lia); reflexivity|].
  replace n with (k + (n - k)) at 1 by lia. rewrite zseq_app by lia.
  rewrite zdrop_app_r by (rewrite zlen_zseq; lia). rewrite zlen_zseq.
  replace (k - Z.max 0 k) with 0 by lia. apply zdrop_nonpos; lia.
Qed.

(** *** Closed form of [payload_between] *)
Definition pos_payload (p : Z) : Z := p - (p / 65536) * 24 - Z.min (p mod 65536) 24.

Lemma payload_closed a b : 0 <= a <= b -> payload_between a b = pos_payload b - pos_payload a.
Proof.
  intros H. unfold payload_between.
  replace b with (a + (b - a)) at 2 by lia. assert (Hn : 0 <= b - a) by lia. clear H.
  revert Hn. generalize (b - a) as n. apply natlike_ind.
  - cbn. replace (a + 0) with a by lia. lia.
  - intros n Hn IH. rewrite <- Z.add_1_r, zseq_S by lia.
    rewrite filter_app, zlen_app, IH. cbn [filter]. unfold in_block_header, pos_payload.
    destruct (Z.ltb_spec ((a + n) mod 65536) 24); cbn [negb]; 
      [change (zlen (@nil Z)) with 0|change (zlen [a + n]) with 1];
    replace (a + (n + 1)) with (a + n + 1) by lia; generalize dependent (a + n); intros q ?; clear IH; dml.
Qed.

Lemma DistanceWithoutOverhead_eq a b : 0 <= a <= b -> b < 2 ^ 64 ->
  DistanceWithoutOverhead a b = pos_payload b - pos_payload a.
Proof.
  intros H1 H2. unfold DistanceWithoutOverhead. rewrite u64_small; blk; unfold pos_payload.
  - clear H2; dml.
  - split; [clear H2; dml|]. apply Z.le_lt_trans with b; [clear H2; dml|assumption].
Qed.

Lemma DistanceWithoutOverhead_payload a b : 0 <= a <= b -> b < 2 ^ 64 ->
  DistanceWithoutOverhead a b = payload_between a b.
Proof. intros; rewrite DistanceWithoutOverhead_eq, payload_closed by lia; reflexivity. Qed.

Lemma pos_payload_mono a b : 0 <= a <= b -> pos_payload a <= pos_payload b.
Proof. intros; unfold pos_payload; dml. Qed.

Lemma RemainingInBlock_eq p : RemainingInBlock p = (- p) mod 65536.
Proof.
  unfold RemainingInBlock, u64, kBlockSize. 
  rewrite <- Znumtheory.Zmod_div_mod; try lia. exists (2 ^ 48). reflexivity.
Qed.

Lemma IsPossibleChunkBoundary_iff p : IsPossibleChunkBoundary p = true <-> chunk_boundary p.
Proof.
  unfold IsPossibleChunkBoundary, chunk_boundary. rewrite RemainingInBlock_eq. blk.
  rewrite Z.ltb_lt. dml.
Qed.

Definition round_up (p : Z) : Z := p + Z.max 0 ((- p) mod 65536 - 65511).
Lemma RoundUp_eq p : 0 <= p -> p + 24 < 2 ^ 64 -> RoundUpToPossibleChunkBoundary p = round_up p.
Proof.
  intros H1 H2. unfold RoundUpToPossibleChunkBoundary, SaturatingSub, round_up.
  rewrite RemainingInBlock_eq. blk.
  rewrite u64_small.
  - destruct (Z.ltb_spec ((- p) mod 65536) (65512 - 1)); lia.
  - destruct (Z.ltb_spec ((- p) mod 65536) (65512 - 1)); [lia|].
    pose proof (Z.mod_pos_bound (-p) 65536). lia.
Qed.
Lemma round_up_spec p : 0 <= p ->
  p <= round_up p <= p + 24 /\ chunk_boundary (round_up p) /\
  (forall q, p <= q -> chunk_boundary q -> round_up p <= q).
Proof.
  intros H. unfold round_up, chunk_boundary. split; [dml|]. split; [dml|].
  intros q Hq Hb. dml.
Qed.

(** *** AddWithOverhead *)
Definition add_ov (cb len : Z) : Z := cb + len + ((len + (cb + 65511) mod 65536) / 65512) * 24.

Definition no_overflow (cb len : Z) : Prop := cb + len + (len / 65512 + 1) * 24 < 2 ^ 64.

Lemma AddWithOverhead_eq cb len : 0 <= cb -> chunk_boundary cb -> 0 <= len -> no_overflow cb len ->
  AddWithOverhead cb len = add_ov cb len.
Proof.
  unfold no_overflow, chunk_boundary. intros H1 Hb H2 H3. unfold AddWithOverhead, add_ov. blk.
  assert (E : u64 (cb + 65512 - 1) mod 65536 = (cb + 65511) mod 65536).
  { unfold u64. rewrite <- Znumtheory.Zmod_div_mod; [f_equal; lia|lia|lia|exists (2 ^ 48); reflexivity]. }
  rewrite E. clear E.
  assert (M : 0 <= (cb + 65511) mod 65536 < 65512) by dml.
  remember ((cb + 65511) mod 65536) as m eqn:Em. clear Hb Em.
  assert (L : len < 2 ^ 64 - 65536).
  { change (2 ^ 64) with 18446744073709551616 in *. clear M m. dml. }
  rewrite (u64_small (len + m)) by lia.
  rewrite u64_small; [lia|]. 
  change (2 ^ 64) with 18446744073709551616 in *. clear L. split; [dml|].
  assert ((len + m) / 65512 <= len / 65512 + 1) by (clear H3; dml). lia.
Qed.

Lemma pos_payload_S p : 0 <= p ->
  pos_payload (p + 1) = pos_payload p + (if in_block_header p then 0 else 1).
Proof.
  intros. unfold pos_payload, in_block_header. destruct (Z.ltb_spec (p mod 65536) 24); dml.
Qed.

(** The block number and offset of a chunk boundary, seen as lying at offset 25..65536 of a block. *)
Lemma boundary_split p : 0 <= p -> chunk_boundary p ->
  exists c t, p = 65536 * c + 25 + t /\ 0 <= t <= 65511 /\ (p + 65511) mod 65536 = t /\
              pos_payload p = p - 24 * (c + 1) /\ -1 <= c.
Proof.
  intros H Hb. unfold chunk_boundary, pos_payload in *.
  exists ((p - 25) / 65536), ((p - 25) mod 65536). 
  pose proof (Z.div_mod (p - 25) 65536 ltac:(lia)). dml.
Qed.

Lemma split_boundary c t : -1 <= c -> 0 <= t <= 65511 -> 0 <= 65536 * c + 25 + t ->
  chunk_boundary (65536 * c + 25 + t) /\
  pos_payload (65536 * c + 25 + t) = 65536 * c + 25 + t - 24 * (c + 1).
Proof. intros. unfold chunk_boundary, pos_payload. split; dml. Qed.

Lemma add_ov_spec cb len : 0 <= cb -> chunk_boundary cb -> 0 <= len ->
  cb + len <= add_ov cb len /\ chunk_boundary (add_ov cb len) /\
  pos_payload (add_ov cb len) - pos_payload cb = len /\
  (forall q, cb <= q < add_ov cb len -> pos_payload q - pos_payload cb < len).
Proof.
  intros H1 Hb Hl. unfold add_ov.
  destruct (boundary_split cb H1 Hb) as (c & t & E & Ht & Em & Ep & Hc). rewrite Em.
  pose proof (Z.div_mod (len + t) 65512 ltac:(lia)) as D.
  pose proof (Z.mod_pos_bound (len + t) 65512 ltac:(lia)) as R.
  assert (K : 0 <= (len + t) / 65512) by (apply Z.div_pos; lia).
  remember ((len + t) / 65512) as k. remember ((len + t) mod 65512) as s. clear Heqk Heqs.
  assert (Ee : cb + len + k * 24 = 65536 * (c + k) + 25 + s) by lia.
  destruct (split_boundary (c + k) s) as [B P]; try lia.
  rewrite Ee. split; [lia|]. split; [exact B|]. split; [lia|].
  intros q Hq.
  assert (Le : pos_payload q <= pos_payload (65536 * (c + k) + 25 + s - 1)) by (apply pos_payload_mono; lia).
  pose proof (pos_payload_S (65536 * (c + k) + 25 + s - 1) ltac:(lia)) as S1.
  replace (65536 * (c + k) + 25 + s - 1 + 1) with (65536 * (c + k) + 25 + s) in S1 by lia.
  unfold in_block_header in S1.
  destruct (Z.ltb_spec ((65536 * (c + k) + 25 + s - 1) mod 65536) 24) as [Hin|Hin].
  - exfalso. clear - Hin R. dml.
  - lia.
Qed.

(** *** ChunkEnd *)
Definition chunk_end (data_size num_records cb : Z) : Z :=
  Z.max (add_ov cb (40 + data_size)) (round_up (cb + num_records)).

Lemma ChunkEnd_eq ds nr cb : 0 <= cb -> chunk_boundary cb -> 0 <= ds -> 0 <= nr ->
  no_overflow cb (40 + ds) -> cb + nr + 24 < 2 ^ 64 ->
  ChunkEnd ds nr cb = chunk_end ds nr cb.
Proof.
  intros H0 Hb Hd Hn Ho Hr. unfold ChunkEnd, chunk_end. blk.
  assert (40 + ds < 2 ^ 64) by (unfold no_overflow in Ho; change (2 ^ 64) with 18446744073709551616 in *; dml).
  rewrite u64_small by lia. rewrite AddWithOverhead_eq by (assumption || lia).
  rewrite u64_small by lia. rewrite RoundUp_eq by lia. reflexivity.
Qed.

Lemma chunk_end_spec ds nr cb : 0 <= cb -> chunk_boundary cb -> 0 <= ds -> 0 <= nr ->
  let e := chunk_end ds nr cb in
  chunk_boundary e /\ cb + nr <= e /\ 40 + ds <= pos_payload e - pos_payload cb /\
  cb + 40 + ds <= e /\
  (forall q, chunk_boundary q -> cb + nr <= q -> cb <= q -> 40 + ds <= pos_payload q - pos_payload cb -> e <= q).
Proof.
  intros H0 Hb Hd Hn. cbv zeta.
  destruct (add_ov_spec cb (40 + ds) H0 Hb ltac:(lia)) as (A1 & A2 & A3 & A4).
  destruct (round_up_spec (cb + nr) ltac:(lia)) as (R1 & R2 & R3).
  unfold chunk_end. destruct (Z.max_spec (add_ov cb (40 + ds)) (round_up (cb + nr))) as [[M ->]|[M ->]].
  - split; [exact R2|]. split; [lia|]. split; [|split; [lia|]].
    + pose proof (pos_payload_mono (add_ov cb (40 + ds)) (round_up (cb + nr))). lia.
    + intros q Q1 Q2 Q3 Q4. apply R3; [lia|exact Q1].
  - split; [exact A2|]. split; [lia|]. split; [lia|split; [lia|]].
    intros q Q1 Q2 Q3 Q4. destruct (Z_lt_ge_dec q (add_ov cb (40 + ds))) as [Hlt|]; [|lia].
    specialize (A4 q ltac:(lia)). lia.
Qed.

(** *** Block header and chunk header codecs *)
From Verif Require Import Model.ChunkWriter Proof.EndianProof.

Lemma skipn_app_len {A} n (a b : list A) : length a = n -> skipn n (a ++ b) = b.
Proof. intros <-. rewrite skipn_app, skipn_all, Nat.sub_diag. reflexivity. Qed.
Lemma firstn_app_len {A} n (a b : list A) : length a = n -> firstn n (a ++ b) = a.
Proof. intros <-. rewrite firstn_app, firstn_all, Nat.sub_diag. cbn [firstn]. apply app_nil_r. Qed.
Lemma skipn_add {A} n m (l : list A) : skipn (n + m) l = skipn m (skipn n l).
Proof. revert l; induction n as [|n IH]; intros l; [reflexivity|]. destruct l; cbn [skipn Nat.add]; [destruct m; reflexivity|apply IH]. Qed.

Lemma le8_read v rest : 0 <= v < 2 ^ 64 ->
  ReadLittleEndianArray (firstn 8 (WriteLittleEndian 8 v ++ rest)) = v.
Proof.
  intros Hv. rewrite WriteLittleEndian_le_bytes. rewrite firstn_app_len by apply le_bytes_length.
  rewrite ReadLittleEndianArray_val by apply le_bytes_bytes. apply le_val_bytes. exact Hv.
Qed.
Lemma le8_len v : length (WriteLittleEndian 8 v) = 8%nat.
Proof. rewrite WriteLittleEndian_le_bytes; apply le_bytes_length. Qed.
Lemma le8_bytes v : bytes (WriteLittleEndian 8 v).
Proof. rewrite WriteLittleEndian_le_bytes; apply le_bytes_bytes. Qed.

Section Headers.
  Variable hash : list Z -> Z.
  Hypothesis hash_range : forall l, 0 <= hash l < 2 ^ 64.

  Lemma BlockHeader_codec p n : 0 <= p < 2 ^ 64 -> 0 <= n < 2 ^ 64 ->
    let b := BlockHeader hash p n in
    zlen b = 24 /\ bytes b /\ bh_previous_chunk b = p /\ bh_next_chunk b = n /\
    bh_stored_header_hash b = bh_computed_header_hash hash b.
  Proof.
    intros Hp Hn. cbv zeta. unfold BlockHeader.
    split; [unfold zlen; rewrite !app_length, !le8_len; reflexivity|].
    split; [rewrite !bytes_app; auto using le8_bytes|].
    unfold bh_previous_chunk, bh_next_chunk, bh_stored_header_hash, bh_computed_header_hash.
    change 16%nat with (8 + 8)%nat. rewrite !skipn_add.
    rewrite !(skipn_app_len 8) by apply le8_len.
    rewrite !le8_read by (auto || apply hash_range).
    rewrite <- (app_nil_r (WriteLittleEndian 8 n)) at 1. rewrite le8_read by assumption. auto.
  Qed.

  Lemma lor_shl8 t n : 0 <= t < 256 -> 0 <= n -> Z.lor t (Z.shiftl n 8) = t + 256 * n.
  Proof.
    intros Ht Hn. rewrite lor_shl_add by (change (2 ^ 8) with 256; lia).
    change (2 ^ 8) with 256. lia.
  Qed.

  Lemma ChunkHeader_codec data ty nr dsz :
    zlen data < 2 ^ 64 -> 0 <= ty < 256 -> 0 <= nr <= kMaxNumRecords -> 0 <= dsz < 2 ^ 64 ->
    let h := ChunkHeader hash data ty nr dsz in
    zlen h = 40 /\ bytes h /\ ch_data_size h = zlen data /\ ch_data_hash h = hash data /\
    ch_chunk_type h = ty /\ ch_num_records h = nr /\ ch_decoded_data_size h = dsz /\
    ch_stored_header_hash h = ch_computed_header_hash hash h.
  Proof.
    intros Hd Ht Hn Hs. cbv zeta. unfold ChunkHeader.
    split; [unfold zlen; rewrite !app_length, !le8_len; reflexivity|].
    split; [rewrite !bytes_app; auto 10 using le8_bytes|].
    unfold ch_data_size, ch_data_hash, ch_chunk_type, ch_num_records, ch_decoded_data_size,
      ch_stored_header_hash, ch_computed_header_hash.
    change 32%nat with (8 + (8 + (8 + 8)))%nat. change 24%nat with (8 + (8 + 8))%nat.
    change 16%nat with (8 + 8)%nat. rewrite !skipn_add.
    rewrite !(skipn_app_len 8) by apply le8_len.
    unfold kMaxNumRecords in Hn.
    assert (Hsh : u64 (Z.shiftl nr 8) = Z.shiftl nr 8).
    { apply u64_small. rewrite Z.shiftl_mul_pow2 by lia. change (2 ^ 64) with (2 ^ 56 * 2 ^ 8).
      change (2 ^ 8) with 256. lia. }
    rewrite Hsh, lor_shl8 by lia.
    assert (0 <= ty + 256 * nr < 2 ^ 64) by (change (2 ^ 64) with (256 * 2 ^ 56); lia).
    rewrite !le8_read by (auto || apply hash_range || apply u64_range).
    rewrite <- (app_nil_r (WriteLittleEndian 8 dsz)) at 1. rewrite le8_read by assumption.
    split; [apply u64_small; pose proof (zlen_nonneg data); lia|]. split; [reflexivity|].
    split; [change 255 with (Z.ones 8); rewrite Z.land_ones by lia; change (2 ^ 8) with 256; clear - Ht; dml|].
    split; [rewrite Z.shiftr_div_pow2 by lia; change (2 ^ 8) with 256; dml|]. auto.
  Qed.

End Headers.

  (** Every header with 40 bytes has fields in range. *)
  Lemma ReadLE8_range l : bytes l -> 0 <= ReadLittleEndianArray (firstn 8 l) < 2 ^ 64.
  Proof.
    intros Hl. rewrite ReadLittleEndianArray_val by (apply (bytes_ztake 8); assumption).
    pose proof (le_val_bound (firstn 8 l) (bytes_ztake 8 l Hl)) as B.
    assert (8 * zlen (firstn 8 l) <= 64) by (unfold zlen; rewrite firstn_length; lia).
    pose proof (Z.pow_le_mono_r 2 _ _ ltac:(lia) H). lia.
  Qed.
  Lemma ch_ranges h : bytes h ->
    0 <= ch_data_size h < 2 ^ 64 /\ 0 <= ch_num_records h < 2 ^ 56.
  Proof.
    intros H. split; [apply ReadLE8_range, (bytes_zdrop 8); assumption|].
    unfold ch_num_records. rewrite Z.shiftr_div_pow2 by lia.
    pose proof (ReadLE8_range (skipn 24 h) (bytes_zdrop 24 h H)).
    change (2 ^ 64) with (2 ^ 56 * 2 ^ 8) in H0.
    split; [apply Z.div_pos; lia|]. apply Z.div_lt_upper_bound; lia.
  Qed.
  Lemma bh_ranges b : bytes b ->
    0 <= bh_previous_chunk b < 2 ^ 64 /\ 0 <= bh_next_chunk b < 2 ^ 64.
  Proof.
    intros H. split; [apply ReadLE8_range, (bytes_zdrop 8); assumption|].
    apply ReadLE8_range, (bytes_zdrop 16); assumption.
  Qed.

(** *** PosAfterPadding *)
Lemma pad_length_spec padding : 2 <= padding -> forall fuel length,
  0 < length <= padding + 40 -> padding + 40 + padding < 2 ^ 64 -> (1 <= fuel)%nat -> 40 <= length + (Z.of_nat fuel - 1) * padding ->
  exists k, 0 <= k /\ pad_length_loop fuel length padding = Some (length + k * padding) /\
    40 <= length + k * padding /\ (k = 0 \/ length + (k - 1) * padding < 40).
Proof.
  intros Hp. induction fuel as [|fuel IH]; intros length Hl Ho Hf Hb; [lia|].
  cbn [pad_length_loop]. unfold ChunkHeaderSize. destruct (Z.ltb_spec length 40).
  - rewrite u64_small by lia. destruct fuel as [|fuel]; [cbn in Hb; lia|].
    destruct (IH (length + padding)) as (k & K0 & K1 & K2 & K3); try lia.
    exists (k + 1). rewrite K1. split; [lia|]. split; [f_equal; lia|]. split; [lia|]. right; lia.
  - exists 0. split; [lia|]. split; [f_equal; lia|]. lia.
Qed.

(** At most 24 further steps leave the block header zone. *)
Lemma pad_end_spec padding : 2 <= padding -> forall fuel e,
  0 <= e -> e mod padding = 0 -> e + 24 * padding < 2 ^ 64 ->
  (24 < fuel)%nat ->
  exists k, 0 <= k <= 24 /\ pad_end_loop fuel e padding = Some (e + k * padding) /\
    chunk_boundary (e + k * padding) /\ (forall j, 0 <= j < k -> ~ chunk_boundary (e + j * padding)).
Proof.
  intros Hp fuel e He Hm Ho Hf.
  (* the number of steps needed *)
  assert (EX : exists k, 0 <= k <= 24 /\ chunk_boundary (e + k * padding)).
  { unfold chunk_boundary.
    remember (padding mod 65536) as d. remember (e mod 65536) as x.
    assert (X : 0 <= x < 65536) by (subst; apply Z.mod_pos_bound; lia).
    assert (D : 0 <= d < 65536) by (subst; apply Z.mod_pos_bound; lia).
    assert (Ek : forall k, (e + k * padding) mod 65536 = (x + k * d) mod 65536).
    { intros k. subst x d. rewrite <- Z.add_mod_idemp_l by lia. rewrite <- Z.add_mod_idemp_r by lia.
      rewrite <- Z.mul_mod_idemp_r by lia. rewrite Z.add_mod_idemp_r by lia. reflexivity. }
    destruct (Z_le_gt_dec x 0); [exists 0; rewrite Ek; split; [lia|left]; rewrite Z.mul_0_l, Z.add_0_r; rewrite Z.mod_small; lia|].
    destruct (Z_le_gt_dec 25 x); [exists 0; rewrite Ek; split; [lia|right]; rewrite Z.mul_0_l, Z.add_0_r, Z.mod_small; lia|].
    destruct (Z.eq_dec d 0) as [D0|D0].
    { exfalso. (* padding is a multiple of 65536, so is e *)
      apply Z.mod_divide in Hm; [|lia]. destruct Hm as [q Hq].
      symmetry in Heqd. rewrite D0 in Heqd. apply Z.mod_divide in Heqd; [|lia]. destruct Heqd as [q' Hq'].
      assert (e mod 65536 = 0) by (apply Z.mod_divide; [lia|]; exists (q * q'); lia). lia. }
    destruct (Z_le_gt_dec d 24).
    - exists ((25 - x + d - 1) / d). assert (0 <= (25 - x + d - 1) / d <= 24).
      { split; [apply Z.div_pos; lia|]. apply Z.lt_succ_r. apply Z.div_lt_upper_bound; [lia|]. nia. }
      split; [assumption|]. rewrite Ek. right.
      pose proof (Z.div_mod (25 - x + d - 1) d ltac:(lia)). pose proof (Z.mod_pos_bound (25 - x + d - 1) d ltac:(lia)).
      rewrite Z.mod_small; nia.
    - destruct (Z_le_gt_dec d 65512).
      + exists 1. split; [lia|]. rewrite Ek, Z.mul_1_l. clear - X D g g0 g1 l.
        destruct (Z.eq_dec (x + d) 65536) as [->|]; [left; reflexivity|right; rewrite Z.mod_small; lia].
      + (* step backwards by s = 65536 - d, 1 <= s <= 23 *)
        remember (65536 - d) as s.
        exists ((x + s - 1) / s). assert (0 <= (x + s - 1) / s <= 24).
        { split; [apply Z.div_pos; lia|]. apply Z.lt_succ_r. apply Z.div_lt_upper_bound; [lia|]. nia. }
        split; [assumption|]. rewrite Ek.
        pose proof (Z.div_mod (x + s - 1) s ltac:(lia)). pose proof (Z.mod_pos_bound (x + s - 1) s ltac:(lia)).
        remember ((x + s - 1) / s) as k.
        replace (x + k * d) with ((x - k * s) + k * 65536) by (subst s; lia).
        rewrite Z_mod_plus_full.
        assert (-23 < x - k * s <= 0) by nia.
        destruct (Z.eq_dec (x - k * s) 0) as [->|]; [left; reflexivity|right].
        rewrite <- (Z.mod_unique_pos (x - k * s) 65536 (-1) (x - k * s + 65536)); lia. }
  destruct EX as (k0 & Hk0 & Hb0).
  assert (G : forall n fuel e, 0 <= e -> e + Z.of_nat n * padding < 2 ^ 64 -> (n < fuel)%nat -> chunk_boundary (e + Z.of_nat n * padding) ->
     exists k, 0 <= k <= Z.of_nat n /\ pad_end_loop fuel e padding = Some (e + k * padding) /\
       chunk_boundary (e + k * padding) /\ (forall j, 0 <= j < k -> ~ chunk_boundary (e + j * padding))).
  { clear - Hp. induction n as [|n IH]; intros fuel e He Ho Hf Hb; (destruct fuel as [|fuel]; [lia|]); cbn [pad_end_loop].
    - exists 0. replace (e + Z.of_nat 0 * padding) with e in Hb by lia.
      rewrite (proj2 (IsPossibleChunkBoundary_iff e) Hb). cbn [negb].
      split; [lia|]. split; [f_equal; lia|]. split; [replace (e + 0 * padding) with e by lia; exact Hb|lia].
    - destruct (IsPossibleChunkBoundary e) eqn:Eb; cbn [negb].
      + apply IsPossibleChunkBoundary_iff in Eb. exists 0.
        split; [lia|]. split; [f_equal; lia|]. split; [replace (e + 0 * padding) with e by lia; exact Eb|lia].
      + assert (Hnb : ~ chunk_boundary e) by (rewrite <- IsPossibleChunkBoundary_iff; congruence).
        rewrite u64_small by nia.
        destruct (IH fuel (e + padding)) as (k & K0 & K1 & K2 & K3); try nia.
        { replace (e + padding + Z.of_nat n * padding) with (e + Z.of_nat (S n) * padding) by lia. exact Hb. }
        exists (k + 1). rewrite K1. split; [lia|]. split; [f_equal; lia|].
          split; [replace (e + (k + 1) * padding) with (e + padding + k * padding) by lia; exact K2|].
          intros j Hj. destruct (Z.eq_dec j 0) as [->|]; [replace (e + 0 * padding) with e by lia; exact Hnb|].
          replace (e + j * padding) with (e + padding + (j - 1) * padding) by lia. apply K3; lia. }
  destruct (G (Z.to_nat k0) fuel e) as (k & K0 & K1 & K2 & K3); try nia.
  { rewrite Z2Nat.id by lia. exact Hb0. }
  exists k. split; [lia|]. auto.
Qed.

Lemma PosAfterPadding_spec pos padding : 0 <= pos -> 2 <= padding -> pos + 26 * padding + 40 < 2 ^ 64 ->
  exists e, PosAfterPadding pos padding = Some e /\ pos <= e <= pos + 25 * padding + 40 /\ e mod padding = 0 /\
    (pos mod padding = 0 -> e = pos) /\
    (pos mod padding <> 0 -> pos + 40 <= e /\ chunk_boundary e /\
       forall q, q mod padding = 0 -> pos + 40 <= q -> chunk_boundary q -> e <= q).
Proof.
  intros H0 Hp Ho. unfold PosAfterPadding. destruct (Z.leb_spec padding 1); [lia|].
  pose proof (Z.mod_pos_bound pos padding ltac:(lia)) as M.
  destruct (Z.eqb_spec (pos mod padding) 0) as [E|E].
  { exists pos. split; [reflexivity|]. split; [lia|]. split; [exact E|]. split; [reflexivity|contradiction]. }
  destruct (pad_length_spec padding Hp 64 (padding - pos mod padding)) as (k & K0 & -> & K2 & K3); try lia.
  assert (Kb : padding - pos mod padding + k * padding < 40 + padding) by (destruct K3; lia).
  rewrite u64_small by lia.
  pose proof (Z.div_mod pos padding ltac:(lia)) as D.
  assert (Em : (pos + (padding - pos mod padding + k * padding)) mod padding = 0).
  { apply Z.mod_divide; [lia|]. exists (pos / padding + 1 + k). lia. }
  assert (E0 : 0 <= pos + (padding - pos mod padding + k * padding)) by lia.
  destruct (pad_end_spec padding Hp 64 _ E0 Em) as (j & J0 & -> & J2 & J3); try lia.
  remember (pos + (padding - pos mod padding + k * padding)) as e0.
  exists (e0 + j * padding). split; [reflexivity|]. split; [nia|]. split; [rewrite Z_mod_plus_full; exact Em|].
  split; [intros; contradiction|]. intros _. split; [nia|]. split; [exact J2|].
  intros q Q1 Q2 Q3.
  apply Z.mod_divide in Em; [|lia]. destruct Em as [a Ea].
  apply Z.mod_divide in Q1; [|lia]. destruct Q1 as [b Eb].
  destruct (Z_lt_ge_dec q (e0 + j * padding)) as [Hlt|]; [exfalso|lia].
  destruct (Z_lt_ge_dec q e0) as [Hl2|Hg2].
  - assert (b < a) by (apply (Z.mul_lt_mono_pos_r padding); lia).
    assert (b * padding <= (a - 1) * padding) by (apply Z.mul_le_mono_nonneg_r; lia).
    destruct K3; lia.
  - assert (a <= b) by (apply (Z.mul_le_mono_pos_r _ _ padding); lia).
    assert (b < a + j) by (apply (Z.mul_lt_mono_pos_r padding); lia).
    apply (J3 (b - a)); [lia|]. replace (e0 + (b - a) * padding) with q by lia. exact Q3.
Qed.

Lemma padding_distance pos padding e : 0 <= pos -> chunk_boundary pos -> pos mod padding <> 0 ->
  (64 <= padding /\ 65536 mod padding = 0 \/ 65536 <= padding /\ padding mod 65536 = 0) ->
  pos + 40 <= e -> e mod padding = 0 ->
  (forall q, q mod padding = 0 -> pos + 40 <= q -> chunk_boundary q -> e <= q) ->
  40 <= pos_payload e - pos_payload pos.
Proof.
  intros H0 Hb Hm Hp He Em Hmin.
  assert (P0 : 0 < padding) by lia.
  apply Z.mod_divide in Em; [|lia]. destruct Em as [b Eb].
  destruct Hp as [[Hp Hd]|[Hp Hd]]; (apply Z.mod_divide in Hd; [|lia]); destruct Hd as [a Ea].
  - remember ((pos / 65536 + 1) * 65536) as K.
    pose proof (Z.div_mod pos 65536 ltac:(lia)) as D. pose proof (Z.mod_pos_bound pos 65536 ltac:(lia)) as R.
    assert (Rn : pos mod 65536 <> 0).
    { intros E. apply Hm. apply Z.mod_divide; [lia|]. exists (pos / 65536 * a). rewrite D at 1. rewrite E, Ea. lia. }
    assert (R25 : 25 <= pos mod 65536) by (destruct Hb; lia).
    assert (Kd : K = (pos / 65536 + 1) * a * padding) by (subst K; rewrite Ea; lia).
    assert (KB : K mod 65536 = 0) by (subst K; apply Z_mod_mult).
    assert (PK : pos_payload K - pos_payload pos = K - pos) by (clear - D R R25 HeqK H0; unfold pos_payload; dml).
    destruct (Z_le_gt_dec e K) as [Le|Gt].
    + assert (pos_payload e - pos_payload pos = e - pos); [|lia].
      assert (pos_payload K - pos_payload e = K - e); [|lia].
      clear - D R R25 HeqK H0 Le He KB. unfold pos_payload. dml.
    + assert (HK : K < pos + 40).
      { destruct (Z_lt_ge_dec K (pos + 40)); [assumption|exfalso].
        specialize (Hmin K). rewrite Kd in Hmin at 1. rewrite Z_mod_mult in Hmin.
        specialize (Hmin eq_refl ltac:(lia) (or_introl KB)). lia. }
      assert (LT : (pos / 65536 + 1) * a < b) by (apply (Z.mul_lt_mono_pos_r padding); lia).
      assert (((pos / 65536 + 1) * a + 1) * padding <= b * padding) by (apply Z.mul_le_mono_nonneg_r; lia).
      assert (K + 64 <= e) by lia.
      pose proof (pos_payload_mono (K + 64) e ltac:(lia)).
      assert (pos_payload (K + 64) - pos_payload K = 40); [|lia].
      clear - KB H0 HeqK R D. unfold pos_payload. dml.
  - assert (Ee : e mod 65536 = 0) by (rewrite Eb, Ea, Z.mul_assoc; apply Z_mod_mult).
    clear - Ee He H0 Hb Hm. unfold pos_payload, chunk_boundary in *. dml.
Qed.
