(** The bytes produced by the chunk writer, position by position. *)
From Verif Require Import Base.Bytes Model.Endian Model.Block Model.Chunk Model.ChunkWriter
  Spec.BlockSpec Proof.EndianProof Proof.BlockProof.

Definition nthZ (l : list Z) (i : Z) : Z := nth (Z.to_nat i) l 0.

Lemma nthZ_over l i : zlen l <= i -> nthZ l i = 0.
Proof. intros H. unfold nthZ, zlen in *. apply nth_overflow. lia. Qed.
Lemma nthZ_app_l a b i : 0 <= i < zlen a -> nthZ (a ++ b) i = nthZ a i.
Proof. intros H. unfold nthZ, zlen in *. apply app_nth1. lia. Qed.
Lemma nthZ_app_r a b i : zlen a <= i -> nthZ (a ++ b) i = nthZ b (i - zlen a).
Proof. intros H. unfold nthZ, zlen in *. rewrite app_nth2 by lia. f_equal. lia. Qed.
Lemma nthZ_zeros n i : nthZ (zeros n) i = 0.
Proof. unfold nthZ, zeros. apply nth_repeat. Qed.
Lemma nthZ_cons x l i : nthZ (x :: l) i = if i <=? 0 then x else nthZ l (i - 1).
Proof.
  unfold nthZ. destruct (Z.leb_spec i 0).
  - replace (Z.to_nat i) with 0%nat by lia. reflexivity.
  - replace (Z.to_nat i) with (S (Z.to_nat (i - 1))) by lia. reflexivity.
Qed.

Lemma map_nthZ_all l : map (nthZ l) (zseq 0 (zlen l)) = l.
Proof.
  induction l as [|x l IH]; [reflexivity|].
  rewrite zlen_cons. pose proof (zlen_nonneg l). rewrite zseq_cons by lia. cbn [map]. f_equal.
  etransitivity; [|exact IH]. replace (1 + zlen l - 1) with (zlen l) by lia.
  unfold zseq. rewrite !map_map. apply map_ext_in. intros i Hi. rewrite nthZ_cons.
  destruct (Z.leb_spec (0 + 1 + Z.of_nat i) 0); [lia|]. f_equal. lia.
Qed.
Lemma map_zslice {A} (f : Z -> A) a n p k : 0 <= p -> k <= n - p ->
  zslice p k (map f (zseq a n)) = map f (zseq (a + p) k).
Proof.
  intros Hp Hk. unfold zslice, ztake, zdrop. rewrite skipn_map, firstn_map. f_equal.
  change (firstn (Z.to_nat k) (skipn (Z.to_nat p) (zseq a n))) with (ztake k (zdrop p (zseq a n))).
  rewrite zdrop_zseq by lia. apply ztake_zseq. lia.
Qed.
Lemma map_nthZ l i n : 0 <= i -> i + n <= zlen l -> map (nthZ l) (zseq i n) = zslice i n l.
Proof.
  intros Hi Hn. rewrite <- (map_nthZ_all l) at 2. rewrite map_zslice by lia. reflexivity.
Qed.
Lemma map_nthZ_zeros l i n : zlen l <= i -> map (nthZ l) (zseq i n) = zeros n.
Proof.
  intros Hi. unfold zeros, zseq. rewrite map_map. generalize 0%nat as k.
  induction (Z.to_nat n) as [|m IH]; intros k; [reflexivity|]. cbn [seq map repeat]. f_equal; [apply nthZ_over; lia|apply IH].
Qed.
Lemma map_zseq_shift (f g : Z -> Z) a b n : (forall i, 0 <= i < n -> f (a + i) = g (b + i)) ->
  map f (zseq a n) = map g (zseq b n).
Proof.
  intros H. unfold zseq. rewrite !map_map. apply map_ext_in. intros i Hi. apply in_seq in Hi. apply H. lia.
Qed.

(** *** Boundaries and payload counts *)
Lemma boundary_le a b : 0 <= a -> 0 <= b -> chunk_boundary a -> pos_payload a <= pos_payload b -> a <= b.
Proof.
  intros Ha Hb Hc H. destruct (Z_le_gt_dec a b) as [|G]; [assumption|exfalso].
  pose proof (pos_payload_mono b (a - 1) ltac:(lia)).
  pose proof (pos_payload_S (a - 1) ltac:(lia)) as S. replace (a - 1 + 1) with a in S by lia.
  unfold in_block_header in S. unfold chunk_boundary in Hc.
  destruct (Z.ltb_spec ((a - 1) mod 65536) 24); [clear - H1 Hc G Hb; dml|lia].
Qed.
Lemma boundary_eq a b : 0 <= a -> 0 <= b -> chunk_boundary a -> chunk_boundary b ->
  pos_payload a = pos_payload b -> a = b.
Proof. intros. pose proof (boundary_le a b). pose proof (boundary_le b a). lia. Qed.
Lemma boundary_payload_lt a b : 0 <= a < b -> chunk_boundary b -> pos_payload a < pos_payload b.
Proof.
  intros H Hb. destruct (Z_lt_ge_dec (pos_payload a) (pos_payload b)); [assumption|].
  pose proof (boundary_le b a ltac:(lia) ltac:(lia) Hb ltac:(lia)). lia.
Qed.

Lemma payload_run q n : 0 <= q -> 24 <= q mod 65536 -> 0 <= n -> q mod 65536 + n <= 65536 ->
  pos_payload (q + n) = pos_payload q + n.
Proof. intros. unfold pos_payload. dml. Qed.
Lemma boundary_run q n : 24 <= q mod 65536 -> 0 < n -> q mod 65536 + n <= 65536 -> chunk_boundary (q + n).
Proof. intros. unfold chunk_boundary. dml. Qed.

Section Writer.
  Variable hash : list Z -> Z.
  Hypothesis hash_range : forall l, 0 <= hash l < 2 ^ 64.

  (** The byte at position [p] of a chunk occupying [cb, ce) with payload [pl] (zero padded). *)
  Definition cbyte (cb ce : Z) (pl : list Z) (p : Z) : Z :=
    if in_block_header p then
      nthZ (BlockHeader hash (p - p mod 65536 - cb) (ce - (p - p mod 65536))) (p mod 65536)
    else nthZ pl (pos_payload p - pos_payload cb).

  Definition chunk_image (cb ce : Z) (pl : list Z) : list Z := map (cbyte cb ce pl) (zseq cb (ce - cb)).

  Lemma zlen_chunk_image cb ce pl : cb <= ce -> zlen (chunk_image cb ce pl) = ce - cb.
  Proof. intros. unfold chunk_image. rewrite zlen_map, zlen_zseq. lia. Qed.

  Lemma zlen_BlockHeader p n : zlen (BlockHeader hash p n) = 24.
  Proof. unfold BlockHeader, zlen. rewrite !app_length, !le8_len. reflexivity. Qed.

  (** Bytes in a block header. *)
  Lemma cbyte_header cb ce pl K o n : K mod 65536 = 0 -> 0 <= o -> o + n <= 24 ->
    map (cbyte cb ce pl) (zseq (K + o) n) = zslice o n (BlockHeader hash (K - cb) (ce - K)).
  Proof.
    intros HK Ho Hn. rewrite <- map_nthZ by (rewrite ?zlen_BlockHeader; lia).
    apply map_zseq_shift. intros i Hi. unfold cbyte, in_block_header.
    assert (E : (K + o + i) mod 65536 = o + i) by (clear - HK Ho Hn Hi; dml).
    rewrite E. destruct (Z.ltb_spec (o + i) 24); [|lia]. do 2 f_equal; lia.
  Qed.
  (** Bytes between block headers. *)
  Lemma cbyte_payload cb ce pl p n : 0 <= p -> 24 <= p mod 65536 -> p mod 65536 + n <= 65536 ->
    map (cbyte cb ce pl) (zseq p n) = map (nthZ pl) (zseq (pos_payload p - pos_payload cb) n).
  Proof.
    intros H0 H1 H2. apply map_zseq_shift. intros i Hi. unfold cbyte, in_block_header.
    destruct (Z.ltb_spec ((p + i) mod 65536) 24) as [Hc|Hc]; [exfalso; clear - H0 H1 H2 Hi Hc; dml|].
    f_equal. assert (pos_payload (p + i) = pos_payload p + i); [|lia].
    clear - H0 H1 H2 Hi Hc. unfold pos_payload. dml.
  Qed.
  Lemma map_cbyte_split cb ce pl p a b : 0 <= a -> 0 <= b ->
    map (cbyte cb ce pl) (zseq p (a + b)) =
    map (cbyte cb ce pl) (zseq p a) ++ map (cbyte cb ce pl) (zseq (p + a) b).
  Proof. intros. rewrite zseq_app, map_app by lia. reflexivity. Qed.

  (** One step of the section loop: optional block header, then bytes up to the end of the block. *)
  Lemma step_bytes cb ce pl pos src :
    0 <= cb <= pos -> chunk_boundary cb -> chunk_boundary pos -> pos < ce < 2 ^ 64 ->
    0 < src -> pos_payload pos + src <= pos_payload ce ->
    let q := if IsBlockBoundary pos then u64 (pos + BlockHeaderSize) else pos in
    let hdr := if IsBlockBoundary pos then
        BlockHeader hash (u64 (pos - cb)) (u64 (ce - pos)) else [] in
    let n := Z.min src (RemainingInBlock q) in
    (q = if pos mod 65536 =? 0 then pos + 24 else pos) /\ 0 < n <= src /\
    24 <= q mod 65536 /\ q mod 65536 + n <= 65536 /\
    pos_payload q = pos_payload pos /\
    hdr = map (cbyte cb ce pl) (zseq pos (q - pos)) /\ pos <= q /\
    q + n <= ce /\ chunk_boundary (q + n) /\ pos_payload (q + n) = pos_payload pos + n.
  Proof.
    intros Hcb Hbc Hbp Hce Hs Hp. cbv zeta. unfold IsBlockBoundary. blk.
    assert (BL : forall x, 0 <= x -> chunk_boundary x -> pos_payload x <= pos_payload ce -> x <= ce).
    { intros x X0 X1 X2. apply boundary_le; try assumption. lia. }
    assert (Q24 : pos mod 65536 = 0 -> pos + 24 <= ce).
    { intros E. destruct (Z_le_gt_dec (pos + 24) ce); [assumption|exfalso].
      assert (pos_payload ce <= pos_payload (pos + 24)) by (apply pos_payload_mono; lia).
      assert (pos_payload (pos + 24) = pos_payload pos) by (clear - E Hcb; unfold pos_payload; dml). lia. }
    destruct (Z.eqb_spec (pos mod 65536) 0) as [E|E].
    - specialize (Q24 E). rewrite !u64_small by lia.
      assert (E24 : (pos + 24) mod 65536 = 24) by (clear - E; dml).
      assert (PP : pos_payload (pos + 24) = pos_payload pos) by (clear - E Hcb; unfold pos_payload; dml).
      rewrite RemainingInBlock_eq. remember (Z.min src ((- (pos + 24)) mod 65536)) as n.
      assert (R : (- (pos + 24)) mod 65536 = 65512) by (clear - E24; dml).
      rewrite R in Heqn.
      assert (N1 : chunk_boundary (pos + 24 + n) /\ pos_payload (pos + 24 + n) = pos_payload (pos + 24) + n).
      { clear - E24 Heqn Hs Hcb E. unfold chunk_boundary, pos_payload. split; dml. }
      destruct N1 as [N1 N2].
      split; [reflexivity|]. split; [lia|]. split; [lia|]. split; [lia|]. split; [lia|].
      split. { replace (pos + 24 - pos) with 24 by lia. rewrite <- (Z.add_0_r pos) at 3.
        rewrite cbyte_header by lia. unfold zslice. rewrite zdrop_nonpos, ztake_all by (rewrite ?zlen_BlockHeader; lia). reflexivity. }
      split; [lia|]. split; [apply BL; [lia|assumption|lia]|]. split; [assumption|lia].
    - assert (P25 : 25 <= pos mod 65536) by (destruct Hbp; lia).
      rewrite RemainingInBlock_eq. remember (Z.min src ((- pos) mod 65536)) as n.
      assert (R : (- pos) mod 65536 = 65536 - pos mod 65536) by (clear - P25; dml).
      pose proof (Z.mod_pos_bound pos 65536 ltac:(lia)) as M.
      rewrite R in Heqn.
      assert (N1 : chunk_boundary (pos + n) /\ pos_payload (pos + n) = pos_payload pos + n).
      { assert (1 <= n <= 65536 - pos mod 65536) by lia. clear - P25 H Hcb. unfold chunk_boundary, pos_payload. split; dml. }
      destruct N1 as [N1 N2].
      split; [reflexivity|]. split; [lia|]. split; [lia|]. split; [lia|]. split; [lia|].
      split. { rewrite zseq_nonpos by lia. reflexivity. }
      split; [lia|]. split; [apply BL; [lia|assumption|lia]|]. split; [assumption|lia].
  Qed.

  Lemma WriteSection_spec cb ce pl : 0 <= cb -> chunk_boundary cb -> ce < 2 ^ 64 ->
    forall fuel src pos, (length src <= fuel)%nat -> cb <= pos -> chunk_boundary pos ->
      pos <= ce -> pos_payload pos + zlen src <= pos_payload ce ->
      zslice (pos_payload pos - pos_payload cb) (zlen src) pl = src ->
      pos_payload pos - pos_payload cb + zlen src <= zlen pl ->
      exists pos', WriteSection hash fuel src cb ce pos
                   = Some (map (cbyte cb ce pl) (zseq pos (pos' - pos)), pos') /\
        pos <= pos' <= ce /\ chunk_boundary pos' /\ pos_payload pos' = pos_payload pos + zlen src.
  Proof.
    intros Hcb Hbc Hce. induction fuel as [|fuel IH]; intros src pos Hf Hp Hbp Hpe Hpp Hsl Hlen.
    - destruct src; [|cbn in Hf; lia]. exists pos. cbn [WriteSection]. rewrite Z.sub_diag.
      rewrite zseq_nonpos by lia. rewrite zlen_nil. split; [reflexivity|]. lia || (split; [lia|]; split; [assumption|lia]).
    - destruct src as [|s0 src0].
      { exists pos. cbn [WriteSection]. rewrite Z.sub_diag. rewrite zseq_nonpos by lia. rewrite zlen_nil.
        split; [reflexivity|]. split; [lia|]. split; [assumption|lia]. }
      remember (s0 :: src0) as src eqn:Esrc.
      assert (Hs : 0 < zlen src) by (subst src; rewrite zlen_cons; pose proof (zlen_nonneg src0); lia).
      assert (Hlt : pos < ce).
      { destruct (Z_lt_ge_dec pos ce); [assumption|]. replace ce with pos in Hpp by lia. lia. }
      pose proof (step_bytes cb ce pl pos (zlen src) ltac:(lia) Hbc Hbp ltac:(lia) Hs Hpp) as ST.
      cbv zeta in ST.
      assert (EW : WriteSection hash (S fuel) src cb ce pos =
        (let '(hdr, pos1) :=
              if IsBlockBoundary pos then
                (BlockHeader hash (u64 (pos - cb)) (u64 (ce - pos)), u64 (pos + BlockHeaderSize))
              else ([], pos) in
            let length := Z.min (zlen src) (RemainingInBlock pos1) in
            match WriteSection hash fuel (zdrop length src) cb ce (u64 (pos1 + length)) with
            | None => None
            | Some (out, pos') => Some (hdr ++ ztake length src ++ out, pos')
            end)) by (subst src; reflexivity).
      rewrite EW. clear EW Esrc.
      replace (if IsBlockBoundary pos then
                (BlockHeader hash (u64 (pos - cb)) (u64 (ce - pos)), u64 (pos + BlockHeaderSize))
              else ([], pos)) with
         (if IsBlockBoundary pos then BlockHeader hash (u64 (pos - cb)) (u64 (ce - pos)) else [],
          if IsBlockBoundary pos then u64 (pos + BlockHeaderSize) else pos) by (destruct (IsBlockBoundary pos); reflexivity).
      remember (if IsBlockBoundary pos then BlockHeader hash (u64 (pos - cb)) (u64 (ce - pos)) else []) as hdr.
      remember (if IsBlockBoundary pos then u64 (pos + BlockHeaderSize) else pos) as q.
      remember (Z.min (zlen src) (RemainingInBlock q)) as n.
      cbv beta iota zeta.
      destruct ST as (Q0 & N & Q1 & Q2 & Q3 & Q4 & Q5 & Q6 & Q7 & Q8).
      clear Heqhdr Heqq Heqn.
      rewrite u64_small by lia.
      destruct (IH (zdrop n src) (q + n)) as (pos' & W & B1 & B2 & B3); try assumption; try lia.
      + assert (zlen (zdrop n src) <= Z.of_nat fuel); [|unfold zlen in *; lia].
        rewrite zlen_zdrop. unfold zlen in *. lia.
      + rewrite zlen_zdrop. lia.
      + rewrite zlen_zdrop. rewrite Q8.
        transitivity (zdrop n (zslice (pos_payload pos - pos_payload cb) (zlen src) pl)); [|rewrite Hsl; reflexivity]. unfold zslice.
        rewrite zdrop_ztake by lia. rewrite zdrop_zdrop; [|lia|]. 
        2:{ pose proof (pos_payload_mono cb pos). lia. }
        f_equal; [lia|]. f_equal. lia.
      + rewrite zlen_zdrop. lia.
      + rewrite W. exists pos'. rewrite zlen_zdrop in B3.
        split; [|split; [lia|]; split; [assumption|lia]].
        f_equal. f_equal.
        replace (pos' - pos) with ((q - pos) + (n + (pos' - (q + n)))) by lia.
        rewrite map_cbyte_split by lia. rewrite <- Q4. f_equal.
        replace (pos + (q - pos)) with q by lia.
        rewrite map_cbyte_split by lia. f_equal.
        rewrite cbyte_payload by lia. rewrite Q3.
        pose proof (pos_payload_mono cb pos ltac:(lia)).
        rewrite map_nthZ by lia. rewrite <- Hsl at 1. unfold zslice. rewrite ztake_ztake. f_equal. lia.
  Qed.

  Lemma WritePaddingTo_spec cb ce pl : 0 <= cb -> chunk_boundary cb -> chunk_boundary ce -> ce < 2 ^ 64 ->
    forall fuel pos, (Z.to_nat (ce - pos) <= fuel)%nat -> cb <= pos -> chunk_boundary pos -> pos <= ce ->
      zlen pl <= pos_payload pos - pos_payload cb ->
      WritePaddingTo hash fuel cb ce pos = Some (map (cbyte cb ce pl) (zseq pos (ce - pos)), ce).
  Proof.
    intros Hcb Hbc Hbe Hce. induction fuel as [|fuel IH]; intros pos Hf Hp Hbp Hpe Hlen.
    - assert (pos = ce) by lia. subst pos. cbn [WritePaddingTo]. rewrite Z.ltb_irrefl, Z.sub_diag, zseq_nonpos by lia. reflexivity.
    - cbn [WritePaddingTo]. destruct (Z.ltb_spec pos ce) as [Hlt|]; [|assert (pos = ce) by lia; subst pos; rewrite Z.sub_diag, zseq_nonpos by lia; reflexivity].
      pose proof (boundary_payload_lt pos ce ltac:(lia) Hbe) as Hpp.
      pose proof (step_bytes cb ce pl pos (pos_payload ce - pos_payload pos) ltac:(lia) Hbc Hbp ltac:(lia) ltac:(lia) ltac:(lia)) as ST.
      cbv zeta in ST.
      replace (if IsBlockBoundary pos then
                (BlockHeader hash (u64 (pos - cb)) (u64 (ce - pos)), u64 (pos + BlockHeaderSize))
              else ([], pos)) with
         (if IsBlockBoundary pos then BlockHeader hash (u64 (pos - cb)) (u64 (ce - pos)) else [],
          if IsBlockBoundary pos then u64 (pos + BlockHeaderSize) else pos) by (destruct (IsBlockBoundary pos); reflexivity).
      remember (if IsBlockBoundary pos then BlockHeader hash (u64 (pos - cb)) (u64 (ce - pos)) else []) as hdr.
      remember (if IsBlockBoundary pos then u64 (pos + BlockHeaderSize) else pos) as q.
      destruct ST as (Q0 & N & Q1 & Q2 & Q3 & Q4 & Q5 & Q6 & Q7 & Q8).
      assert (EN : Z.min (u64 (ce - q)) (RemainingInBlock q)
                   = Z.min (pos_payload ce - pos_payload pos) (RemainingInBlock q)).
      { rewrite u64_small by lia. rewrite RemainingInBlock_eq in *.
        rewrite <- Q3. clear - Q1 Q2 Q5 Q6 N Hcb Hp Hbe.
        assert (R : (- q) mod 65536 = 65536 - q mod 65536) by dml.
        rewrite R. pose proof (Z.mod_pos_bound q 65536 ltac:(lia)).
        destruct (Z_le_gt_dec ce (q + (65536 - q mod 65536))) as [Le|Gt].
        - assert (pos_payload ce - pos_payload q = ce - q); [|lia].
          pose proof (payload_run q (ce - q)). replace (q + (ce - q)) with ce in * by lia. lia.
        - pose proof (pos_payload_mono (q + (65536 - q mod 65536)) ce ltac:(lia)).
          assert (pos_payload (q + (65536 - q mod 65536)) = pos_payload q + (65536 - q mod 65536)); [|lia].
          clear - Q1 H Hcb Hp Q5. unfold pos_payload. dml. }
      remember (Z.min (pos_payload ce - pos_payload pos) (RemainingInBlock q)) as n.
      cbv beta iota zeta. rewrite EN. clear Heqhdr Heqq Heqn EN.
      rewrite u64_small by lia.
      rewrite IH; try assumption; try lia.
      f_equal. f_equal.
      replace (ce - pos) with ((q - pos) + (n + (ce - (q + n)))) by lia.
      rewrite map_cbyte_split by lia. rewrite <- Q4. f_equal.
      replace (pos + (q - pos)) with q by lia.
      rewrite map_cbyte_split by lia. f_equal.
      rewrite cbyte_payload by lia. rewrite Q3.
      rewrite map_nthZ_zeros by lia. reflexivity.
  Qed.

  (** A chunk fits below 2^64 at [cb]. *)
  Definition fits (cb data_size num_records : Z) : Prop :=
    no_overflow cb (40 + data_size) /\ cb + num_records + 24 < 2 ^ 64.

  Lemma no_overflow_end cb len : 0 <= cb -> chunk_boundary cb -> 0 <= len -> no_overflow cb len -> add_ov cb len < 2 ^ 64.
  Proof.
    intros. unfold no_overflow in *. unfold add_ov.
    destruct (boundary_split cb H H0) as (c & t & E & Ht & Em & Ep & Hc). rewrite Em.
    assert ((len + t) / 65512 <= len / 65512 + 1) by (clear - Ht; dml). lia.
  Qed.
  Lemma chunk_end_lt ds nr cb : 0 <= cb -> chunk_boundary cb -> 0 <= ds -> 0 <= nr -> fits cb ds nr ->
    chunk_end ds nr cb < 2 ^ 64.
  Proof.
    intros H0 Hb Hd Hn [F1 F2]. unfold chunk_end.
    pose proof (no_overflow_end cb (40 + ds) H0 Hb ltac:(lia) F1).
    destruct (round_up_spec (cb + nr) ltac:(lia)) as [R _]. lia.
  Qed.

  Definition cpayload (c : chunk) : list Z := c_header c ++ c_data c.
  Definition cend (c : chunk) (cb : Z) : Z :=
    chunk_end (ch_data_size (c_header c)) (ch_num_records (c_header c)) cb.
  (** Well-formed chunk: 40-byte header whose size field is right. *)
  Definition wf_size (c : chunk) : Prop :=
    zlen (c_header c) = 40 /\ bytes (c_header c) /\ ch_data_size (c_header c) = zlen (c_data c).
  Definition cfits (c : chunk) (cb : Z) : Prop :=
    fits cb (zlen (c_data c)) (ch_num_records (c_header c)).

  Lemma cend_spec c cb : 0 <= cb -> chunk_boundary cb -> wf_size c -> cfits c cb ->
    ChunkEnd (ch_data_size (c_header c)) (ch_num_records (c_header c)) cb = cend c cb /\
    chunk_boundary (cend c cb) /\ cb + 40 <= cend c cb < 2 ^ 64 /\
    zlen (cpayload c) = 40 + zlen (c_data c) /\
    pos_payload cb + zlen (cpayload c) <= pos_payload (cend c cb) /\
    cb + ch_num_records (c_header c) <= cend c cb.
  Proof.
    intros H0 Hb (W1 & W2 & W3) [F1 F2].
    pose proof (ch_ranges _ W2) as [R1 R2]. pose proof (zlen_nonneg (c_data c)).
    unfold cend. rewrite <- W3 in F1.
    rewrite ChunkEnd_eq by (assumption || lia).
    destruct (chunk_end_spec (ch_data_size (c_header c)) (ch_num_records (c_header c)) cb) as (A & B & C & D & _); try assumption; try lia.
    pose proof (chunk_end_lt (ch_data_size (c_header c)) (ch_num_records (c_header c)) cb H0 Hb ltac:(lia) ltac:(lia) (conj F1 F2)).
    unfold cpayload. rewrite zlen_app, W1. split; [reflexivity|]. split; [assumption|]. lia.
  Qed.

  Lemma WriteChunk_spec c cb : 0 <= cb -> chunk_boundary cb -> wf_size c -> cfits c cb ->
    WriteChunk hash c cb = Some (chunk_image cb (cend c cb) (cpayload c), cend c cb).
  Proof.
    intros H0 Hb W F. pose proof (cend_spec c cb H0 Hb W F) as (E & B & [L1 L2] & ZL & PP & NR).
    pose proof W as (W1 & W2 & W3). pose proof (zlen_nonneg (c_data c)) as Z0.
    unfold WriteChunk. rewrite E. remember (cend c cb) as ce.
    destruct (WriteSection_spec cb ce (cpayload c) H0 Hb L2 (S (length (c_header c))) (c_header c) cb) as (p1 & -> & P1 & P2 & P3); try assumption; try lia.
    { rewrite Z.sub_diag. unfold zslice, cpayload. rewrite zdrop_nonpos by lia. apply ztake_app_exact. }
    destruct (WriteSection_spec cb ce (cpayload c) H0 Hb L2 (S (length (c_data c))) (c_data c) p1) as (p2 & -> & Q1 & Q2 & Q3); try assumption; try lia.
    { rewrite P3. replace (pos_payload cb + zlen (c_header c) - pos_payload cb) with (zlen (c_header c)) by lia.
      unfold zslice, cpayload. rewrite zdrop_app_exact. apply ztake_all; lia. }
    rewrite (WritePaddingTo_spec cb ce (cpayload c)); try assumption; try lia.
    f_equal. f_equal. unfold chunk_image.
    replace (ce - cb) with ((p1 - cb) + ((p2 - p1) + (ce - p2))) by lia.
    rewrite map_cbyte_split by lia. f_equal. replace (cb + (p1 - cb)) with p1 by lia.
    rewrite map_cbyte_split by lia. f_equal. f_equal. f_equal. lia.
  Qed.
End Writer.
