(** What ReadChunk does on an arbitrary content which does not change meanwhile. *)
From Verif Require Import Base.Bytes Model.Endian Model.Block Model.Chunk Model.ChunkWriter Model.ChunkReader
  Spec.BlockSpec Spec.FileSpec Spec.ChunkLink Proof.EndianProof Proof.BlockProof Proof.ChunkWriterProof
  Proof.ChunkReaderProof Proof.FileProof.

Lemma strip_app a : forall p b, strip_headers p (a ++ b) = strip_headers p a ++ strip_headers (p + zlen a) b.
Proof.
  induction a as [|x a IH]; intros p b; cbn [app strip_headers].
  - change (zlen (@nil Z)) with 0. rewrite Z.add_0_r. reflexivity.
  - rewrite IH. rewrite zlen_cons. replace (p + 1 + zlen a) with (p + (1 + zlen a)) by lia.
    destruct (in_block_header p); reflexivity.
Qed.
Lemma strip_header_piece l : forall p, p mod 65536 + zlen l <= 24 -> strip_headers p l = [].
Proof.
  induction l as [|x l IH]; intros p H; cbn [strip_headers]; [reflexivity|].
  rewrite zlen_cons in H. pose proof (zlen_nonneg l). pose proof (Z.mod_pos_bound p 65536 ltac:(lia)).
  unfold in_block_header. destruct (Z.ltb_spec (p mod 65536) 24); [|lia].
  destruct l; [reflexivity|]. apply IH. rewrite zlen_cons in *. pose proof (zlen_nonneg l).
  assert ((p + 1) mod 65536 = p mod 65536 + 1) by (clear - H H2; dml). lia.
Qed.
Lemma strip_payload_piece l : forall p, 24 <= p mod 65536 -> p mod 65536 + zlen l <= 65536 -> strip_headers p l = l.
Proof.
  induction l as [|x l IH]; intros p H H'; cbn [strip_headers]; [reflexivity|].
  rewrite zlen_cons in H'. pose proof (zlen_nonneg l).
  unfold in_block_header. destruct (Z.ltb_spec (p mod 65536) 24); [lia|].
  f_equal. destruct l as [|y l]; [reflexivity|]. rewrite zlen_cons in *. pose proof (zlen_nonneg l).
  assert ((p + 1) mod 65536 = p mod 65536 + 1) by (clear - H H' H2; dml). apply IH; rewrite ?zlen_cons; lia.
Qed.
Lemma zlen_strip l : forall p, 0 <= p -> zlen (strip_headers p l) = pos_payload (p + zlen l) - pos_payload p.
Proof.
  induction l as [|x l IH]; intros p Hp; cbn [strip_headers].
  - change (zlen (@nil Z)) with 0. rewrite Z.add_0_r. lia.
  - rewrite zlen_cons. pose proof (pos_payload_S p Hp). pose proof (zlen_nonneg l).
    replace (p + (1 + zlen l)) with (p + 1 + zlen l) by lia.
    destruct (in_block_header p); [|rewrite zlen_cons]; rewrite IH by lia; lia.
Qed.

Lemma zslice_app_next {A} p n m (l : list A) : 0 <= p -> 0 <= n -> 0 <= m ->
  zslice p (n + m) l = zslice p n l ++ zslice (p + n) m l.
Proof.
  intros. unfold zslice. rewrite ztake_split by lia. f_equal. f_equal. rewrite zdrop_zdrop by lia. f_equal. lia.
Qed.

(** The payload bytes between two positions. *)
Definition pay (content : list Z) (p q : Z) : list Z := strip_headers p (zslice p (q - p) content).

Lemma pay_split content p q r : 0 <= p <= q -> q <= r -> q <= zlen content -> pay content p r = pay content p q ++ pay content q r.
Proof.
  intros. unfold pay. replace (r - p) with ((q - p) + (r - q)) by lia. rewrite zslice_app_next by lia.
  rewrite strip_app. rewrite zlen_zslice by lia. replace (p + (q - p)) with q by lia. reflexivity.
Qed.
Lemma pay_header content p q : 0 <= p <= q -> q <= zlen content -> p mod 65536 + (q - p) <= 24 -> pay content p q = [].
Proof. intros. unfold pay. apply strip_header_piece. rewrite zlen_zslice by lia. lia. Qed.
Lemma pay_piece content p n : 0 <= p -> 0 <= n -> p + n <= zlen content -> 24 <= p mod 65536 -> p mod 65536 + n <= 65536 ->
  pay content p (p + n) = zslice p n content.
Proof. intros. unfold pay. replace (p + n - p) with n by lia. apply strip_payload_piece; [lia|]. rewrite zlen_zslice by lia. lia. Qed.
Lemma zlen_pay content p q : 0 <= p <= q -> q <= zlen content -> zlen (pay content p q) = pos_payload q - pos_payload p.
Proof. intros. unfold pay. rewrite zlen_strip by lia. rewrite zlen_zslice by lia. do 2 f_equal. lia. Qed.
Lemma pay_nil content p : pay content p p = [].
Proof. unfold pay. rewrite Z.sub_diag. unfold zslice. rewrite ztake_nonpos by lia. reflexivity. Qed.

Lemma bytes_strip l : forall p, bytes l -> bytes (strip_headers p l).
Proof.
  induction l as [|x l IH]; intros p H; cbn [strip_headers]; [constructor|]. apply bytes_cons in H as [H1 H2].
  destruct (in_block_header p); [apply IH; assumption|]. apply bytes_cons. split; [assumption|apply IH; assumption].
Qed.
Lemma bytes_pay content p q : bytes content -> bytes (pay content p q).
Proof. intros. apply bytes_strip. unfold zslice. apply bytes_ztake, bytes_zdrop. assumption. Qed.

Section Static.
  Variable hash : list Z -> Z.
  Variable content : list Z.
  Hypothesis cbytes : bytes content.
  Hypothesis clen : zlen content < 2 ^ 62.

  Definition blk_at (K : Z) : list Z := zslice K 24 content.
  Definition blk_valid (K : Z) : Prop := bh_computed_header_hash hash (blk_at K) = bh_stored_header_hash (blk_at K).
  Definition blk_bounds (p K : Z) : Prop := p <= K /\ K mod 65536 = 0 /\ K + 24 <= zlen content.
  Definition hend (p : Z) : Z := add_ov p 40.
  Definition header_at (p : Z) : list Z := pay content p (hend p).
  Definition header_valid (h : list Z) : Prop := ch_computed_header_hash hash h = ch_stored_header_hash h.
  Definition dend (p : Z) : Z := add_ov p (40 + ch_data_size (header_at p)).
  Definition data_at (p : Z) : list Z := pay content (hend p) (dend p).
  Definition have_header (p : Z) : Prop := hend p <= zlen content /\ header_valid (header_at p).
  (** [K] is a block boundary which the reader of the chunk at [p] has to cross. *)
  Definition inside (p K : Z) : Prop := K < hend p \/ (have_header p /\ K < dend p).
  Definition end_at (p : Z) : Z := ChunkEnd (ch_data_size (header_at p)) (ch_num_records (header_at p)) p.

  (** Why reading the chunk at [p] fails, with the recovery information. *)
  Inductive reason (p : Z) : recoverable -> Z -> Prop :=
  | R_block K : blk_bounds p K -> inside p K -> ~ blk_valid K -> reason p kFindChunk (K + 24)
  | R_prev_have K : blk_bounds p K -> inside p K -> blk_valid K -> bh_previous_chunk (blk_at K) <> K - p ->
      bh_next_chunk (blk_at K) <= 65536 -> reason p kHaveChunk (K + bh_next_chunk (blk_at K))
  | R_prev_find K : blk_bounds p K -> inside p K -> blk_valid K -> bh_previous_chunk (blk_at K) <> K - p ->
      reason p kFindChunk (K + 24)
  | R_header : hend p <= zlen content -> ~ header_valid (header_at p) -> reason p kFindChunk (hend p)
  | R_header_next K : have_header p -> blk_bounds p K -> K < hend p -> blk_valid K -> bh_next_chunk (blk_at K) <> u64 (end_at p - K) ->
      reason p kFindChunk (hend p)
  | R_sig : have_header p -> p = 0 -> 
      ~ (ch_data_size (header_at p) = 0 /\ ch_chunk_type (header_at p) = kFileSignature /\
         ch_num_records (header_at p) = 0 /\ ch_decoded_data_size (header_at p) = 0) -> reason p kFindChunk (hend p)
  | R_next K : have_header p -> blk_bounds p K -> K < dend p -> blk_valid K -> bh_next_chunk (blk_at K) <> u64 (end_at p - K) ->
      reason p kFindChunk (K + 24)
  | R_data : have_header p -> dend p <= end_at p <= zlen content -> hash (data_at p) <> ch_data_hash (header_at p) ->
      reason p kHaveChunk (end_at p).

  Record failed_at (p : Z) (r : reader) : Prop := {
    x_open : r_open r = true; x_failed : r_failed r = true; x_pos : r_pos r = p;
    x_reason : reason p (r_rec r) (r_recpos r); x_spos : p < r_spos r <= zlen content;
    x_hl : zlen (r_header r) = 40; x_bl : zlen (r_block r) = 24 }.

  (** At the end of the content, not failed. *)
  Record ended_at (p : Z) (r : reader) : Prop := {
    e_open : r_open r = true; e_failed : r_failed r = false; e_rec : r_rec r = kNo; e_pos : r_pos r = p;
    e_why : zlen content < hend p \/ (have_header p /\ (zlen content < dend p \/ zlen content < end_at p)) }.

  (** Ready to read a chunk at [p]: nothing of it read yet, except maybe the block header at [p]. *)
  Record start (p : Z) (r : reader) : Prop := {
    s_open : r_open r = true; s_failed : r_failed r = false; s_rec : r_rec r = kNo; s_pos : r_pos r = p;
    s_data : r_data r = []; s_hl : zlen (r_header r) = 40; s_bl : zlen (r_block r) = 24;
    s_p : 0 <= p <= zlen content; s_b : chunk_boundary p;
    s_spos : r_spos r = p \/
      (p mod 65536 = 0 /\ (r_spos r = p + 24 /\ p + 24 <= zlen content) /\ r_block r = blk_at p /\ blk_valid p /\
       bh_previous_chunk (blk_at p) = 0) }.

  Definition down (p : Z) : Z := p - p mod 65536.

  (** The loop invariant. *)
  Record mid (p : Z) (r : reader) : Prop := {
    m_open : r_open r = true; m_failed : r_failed r = false; m_rec : r_rec r = kNo; m_pos : r_pos r = p;
    m_hl : zlen (r_header r) = 40; m_bl : zlen (r_block r) = 24;
    m_p : 0 <= p; m_b : chunk_boundary p;
    m_spos : p <= r_spos r <= zlen content;
    m_al : r_spos r mod 65536 = 0 \/ 24 <= r_spos r mod 65536;
    m_hdr : ztake (zlen (pay content p (r_spos r))) (r_header r) = ztake 40 (pay content p (r_spos r));
    m_data : r_data r = zdrop 40 (pay content p (r_spos r));
    m_blk : p <= down (r_spos r) -> 24 <= r_spos r mod 65536 ->
            r_block r = blk_at (down (r_spos r));
    m_all : forall K, p <= K -> K mod 65536 = 0 -> K + 24 <= r_spos r -> blk_valid K /\ bh_previous_chunk (blk_at K) = K - p
  }.
  Lemma mid_start p r : start p r -> mid p r.
  Proof.
    intros [].
    assert (P0 : pay content p (r_spos r) = []).
    { destruct s_spos0 as [->|(H & (H1 & H2) & _)]; [apply pay_nil|]. rewrite H1. apply pay_header; lia. }
    assert (M : r_spos r mod 65536 = 0 \/ 24 <= r_spos r mod 65536).
    { destruct s_spos0 as [->|(H & (H1 & _) & _)]; [destruct s_b0; lia|]. right. rewrite H1. clear - H. dml. }
    constructor; try assumption; try lia.
    - rewrite P0. reflexivity.
    - rewrite P0. assumption.
    - intros D1 D2. destruct s_spos0 as [E|(H & (H1 & H2) & H3 & _)].
      + unfold down in D1. rewrite E in *. pose proof (Z.mod_pos_bound p 65536 ltac:(lia)). lia.
      + assert (down (r_spos r) = p) as ->; [|assumption]. unfold down. rewrite H1. clear - H. dml.
    - intros K K1 K2 K3. destruct s_spos0 as [E|(H & (H1 & H2) & H3 & H4 & H5)]; [lia|].
      assert (K = p) as -> by (clear - K1 K2 K3 H H1; dml). split; [assumption|lia].
  Qed.
  Lemma zlen_blk_at K : 0 <= K -> K + 24 <= zlen content -> zlen (blk_at K) = 24.
  Proof. intros. apply zlen_zslice; lia. Qed.

  Definition up_block (r : reader) : reader := set_spos (r_spos r + 24) (set_block (blk_at (r_spos r)) r).

  Lemma blit_full (got dst : list Z) : zlen got = zlen dst -> blit 0 got dst = got.
  Proof. intros H. unfold blit. rewrite ztake_nonpos, Z.add_0_l, zdrop_all by lia. rewrite app_nil_r. reflexivity. Qed.

  Lemma hend_spec p : 0 <= p -> chunk_boundary p ->
    p + 40 <= hend p /\ chunk_boundary (hend p) /\ pos_payload (hend p) - pos_payload p = 40 /\
    (forall q, p <= q -> pos_payload q - pos_payload p < 40 -> q < hend p) /\ hend p <= p + 64.
  Proof.
    intros Hp Hb. destruct (add_ov_spec p 40 Hp Hb ltac:(lia)) as (A & B & C & D). fold (hend p) in *.
    repeat split; try assumption; try lia.
    - intros q Q1 Q2. destruct (Z_lt_ge_dec q (hend p)); [assumption|]. pose proof (pos_payload_mono (hend p) q ltac:(lia)). lia.
    - unfold hend, add_ov. pose proof (Z.mod_pos_bound (p + 65511) 65536 ltac:(lia)).
      assert ((40 + (p + 65511) mod 65536) / 65512 <= 1) by (clear - H; dml). lia.
  Qed.

  (** Payload read so far. *)
  Definition off (p q : Z) : Z := pos_payload q - pos_payload p.

  Lemma header_ranges p : 0 <= ch_data_size (header_at p) < 2 ^ 64 /\ 0 <= ch_num_records (header_at p) < 2 ^ 56.
  Proof.
    assert (BY : bytes (header_at p)) by (apply bytes_pay; assumption).
    destruct (ch_ranges _ BY) as (A & B & C). tauto.
  Qed.
  Lemma dend_spec p : 0 <= p -> chunk_boundary p ->
    hend p <= dend p /\ chunk_boundary (dend p) /\ off p (dend p) = 40 + ch_data_size (header_at p) /\
    (forall q, p <= q -> off p q < 40 + ch_data_size (header_at p) -> q < dend p).
  Proof.
    intros Hp Hb. destruct (header_ranges p) as [R _].
    destruct (add_ov_spec p (40 + ch_data_size (header_at p)) Hp Hb ltac:(lia)) as (A & B & C & D). fold (dend p) in *.
    destruct (hend_spec p Hp Hb) as (H1 & H2 & H3 & H4 & H5). unfold off.
    repeat split; try assumption; try lia.
    - apply boundary_le; try lia; assumption.
    - intros q Q1 Q2. destruct (Z_lt_ge_dec q (dend p)); [assumption|]. pose proof (pos_payload_mono (dend p) q ltac:(lia)). lia.
  Qed.

  Lemma block_before e K : K mod 65536 = 0 -> chunk_boundary e -> K < e -> K + 24 < e.
  Proof. intros. unfold chunk_boundary in *. dml. Qed.
  Lemma inside_short p K : 0 <= p -> chunk_boundary p -> K mod 65536 = 0 -> inside p K -> zlen content < K + 24 ->
    zlen content < hend p \/ (have_header p /\ (zlen content < dend p \/ zlen content < end_at p)).
  Proof.
    intros Hp Hb Hm [H|[H H']] L.
    - left. pose proof (block_before (hend p) K Hm (proj1 (proj2 (hend_spec p Hp Hb))) H). lia.
    - right. split; [assumption|left]. pose proof (block_before (dend p) K Hm (proj1 (proj2 (dend_spec p Hp Hb))) H'). lia.
  Qed.

  (** Reading a block header in the middle of a chunk. *)
  Lemma inner_static p r : mid p r -> r_spos r mod 65536 = 0 -> inside p (r_spos r) ->
    match ReadInnerBlockHeader hash content r with
    | (true, r') => r' = up_block r /\ r_spos r + 24 <= zlen content /\ mid p r' /\
        blk_valid (r_spos r) /\ bh_previous_chunk (blk_at (r_spos r)) = r_spos r - p
    | (false, r') => ended_at p r' \/ failed_at p r'
    end.
  Proof.
    intros I Hm Hin. pose proof I as I0. destruct I.
    assert (RH : RemainingInBlockHeader (r_spos r) = 24) by (rewrite RemHeader; lia).
    unfold ReadInnerBlockHeader, ReadBlockHeader, src_read. rewrite RH.
    change (BlockHeaderSize - 24) with 0.
    destruct (Z.leb_spec (r_spos r + 24) (zlen content)) as [HL|HL].
    2:{ cbn [negb]. left. unfold FailReading. cbn [r_pos r_spos set_spos set_block negb].
        assert (WHY := inside_short p (r_spos r) ltac:(lia) ltac:(assumption) Hm Hin ltac:(lia)).
        destruct (r_pos r <? _); constructor; cbn; assumption. }
    rewrite blit_full by (rewrite zlen_zslice; lia). fold (blk_at (r_spos r)). fold (up_block r).
    cbn [negb]. change (r_block (up_block r)) with (blk_at (r_spos r)).
    assert (BB : blk_bounds p (r_spos r)) by (split; [|split]; lia).
    assert (BY : bytes (blk_at (r_spos r))) by (apply bytes_ztake, bytes_zdrop; assumption).
    destruct (bh_ranges _ BY) as [BR1 BR2].
    destruct (Z.eqb_spec (bh_computed_header_hash hash (blk_at (r_spos r))) (bh_stored_header_hash (blk_at (r_spos r)))) as [E|E].
    2:{ cbn [negb]. unfold fail_rec. right.
        constructor; cbn [r_open r_failed r_pos r_rec r_recpos r_spos r_header r_block up_block set_spos set_block set_failed set_rec];
         try assumption; try reflexivity; try lia; [|rewrite zlen_blk_at; lia].
        apply R_block; assumption. }
    cbn [negb]. change (r_block (up_block r)) with (blk_at (r_spos r)). change (r_pos (up_block r)) with (r_pos r).
    replace (u64 (RoundDownToBlockBoundary (r_spos r) - r_pos r)) with (r_spos r - p).
    2:{ unfold RoundDownToBlockBoundary. blk. rewrite Hm, m_pos0, Z.sub_0_r. rewrite u64_small by lia. reflexivity. }
    assert (MI : bh_previous_chunk (blk_at (r_spos r)) = r_spos r - p -> mid p (up_block r)).
    { intros EP. assert (PAY : pay content p (r_spos r + 24) = pay content p (r_spos r)).
      { rewrite (pay_split content p (r_spos r)) by lia. rewrite (pay_header content (r_spos r)) by lia. apply app_nil_r. }
      assert (M24 : (r_spos r + 24) mod 65536 = 24) by (clear - Hm; dml).
      constructor; cbn [up_block r_open r_failed r_rec r_pos r_header r_block r_spos r_data set_spos set_block]; try assumption; try lia.
      - rewrite zlen_blk_at; lia.
      - rewrite PAY. assumption.
      - rewrite PAY. assumption.
      - intros _ _. unfold down. rewrite M24. f_equal. lia.
      - intros K K1 K2 K3. destruct (Z_le_gt_dec (K + 24) (r_spos r)) as [Le|Gt]; [apply m_all0; assumption|].
        assert (K = r_spos r) as -> by (clear - Hm K2 K3 Gt; dml). split; [exact E|exact EP]. }
    destruct (Z.eqb_spec (bh_previous_chunk (blk_at (r_spos r))) (r_spos r - p)) as [EP|EP]; cbn [negb].
    - split; [reflexivity|]. split; [assumption|]. split; [apply MI; assumption|]. split; assumption.
    - destruct (Z.leb_spec (bh_next_chunk (blk_at (r_spos r))) kBlockSize) as [HN|HN]; unfold fail_rec; right;
        (constructor; cbn [r_open r_failed r_pos r_rec r_recpos r_spos r_header r_block up_block set_spos set_block set_failed set_rec];
         try assumption; try reflexivity; try lia; [|rewrite zlen_blk_at; lia]).
      + replace (u64 (RoundDownToBlockBoundary (r_spos r) + bh_next_chunk (blk_at (r_spos r)))) with (r_spos r + bh_next_chunk (blk_at (r_spos r))).
        2:{ unfold RoundDownToBlockBoundary. blk. rewrite Hm, Z.sub_0_r, u64_small by lia. reflexivity. }
        apply R_prev_have; try assumption.
      + apply R_prev_find; assumption.
  Qed.

  Definition good_header (p : Z) : Prop :=
    have_header p /\
    (forall K, p <= K < hend p -> K mod 65536 = 0 -> bh_next_chunk (blk_at K) = u64 (end_at p - K)) /\
    (p = 0 -> ch_data_size (header_at p) = 0 /\ ch_chunk_type (header_at p) = kFileSignature /\
         ch_num_records (header_at p) = 0 /\ ch_decoded_data_size (header_at p) = 0).

  Lemma block_in_header p : 0 <= p -> chunk_boundary p -> (- p) mod 65536 < 40 ->
    let K := p + (- p) mod 65536 in
    p <= K /\ K mod 65536 = 0 /\ K + 24 < hend p /\ down (hend p) = K /\ 24 <= hend p mod 65536.
  Proof.
    intros Hp Hb HR K. destruct (hend_spec p Hp Hb) as (H1 & H2 & H3 & H4 & H5).
    pose proof (Z.mod_pos_bound (- p) 65536 ltac:(lia)) as RB.
    assert (K0 : K mod 65536 = 0) by (subst K; clear; dml).
    assert (KO : pos_payload K - pos_payload p = (- p) mod 65536).
    { subst K. clear - Hp Hb. unfold chunk_boundary, pos_payload in *. dml. }
    assert (KH : K < hend p) by (apply H4; lia).
    assert (KH24 : K + 24 < hend p). { clear - H2 KH K0. unfold chunk_boundary in H2. dml. }
    assert (KD : down (hend p) = K).
    { assert (hend p < K + 65536) by lia. unfold down. clear - K0 KH24 H. dml. }
    split; [lia|]. split; [assumption|]. split; [assumption|]. split; [assumption|]. unfold down in KD. lia.
  Qed.

  Lemma check_header_static p r : mid p r -> r_spos r = hend p -> 
    match CheckChunkHeader hash r with
    | (true, r') => r' = r /\ r_header r = header_at p /\ good_header p
    | (false, r') => ended_at p r' \/ failed_at p r'
    end.
  Proof.
    intros I ES. pose proof I as I0. destruct I.
    destruct (hend_spec p m_p0 m_b0) as (H1 & H2 & H3 & H4 & H5).
    assert (ZP : zlen (pay content p (r_spos r)) = 40) by (rewrite zlen_pay by lia; rewrite ES; lia).
    assert (HE : r_header r = header_at p).
    { rewrite ZP in m_hdr0. rewrite !ztake_all in m_hdr0 by lia. rewrite ES in m_hdr0. exact m_hdr0. }
    unfold CheckChunkHeader. rewrite HE, m_pos0.
    assert (FA : forall rsn, reason p kFindChunk (hend p) -> rsn = set_failed true (set_rec kFindChunk (r_spos r) r) -> failed_at p rsn).
    { intros rsn R ->. constructor; cbn; try assumption; try reflexivity; try lia. rewrite ES. exact R. }
    unfold fail_rec.
    destruct (Z.eqb_spec (ch_computed_header_hash hash (header_at p)) (ch_stored_header_hash (header_at p))) as [E|E]; cbn [negb].
    2:{ right. eapply FA; [|reflexivity]. apply R_header; [lia|exact E]. }
    assert (HH : have_header p) by (split; [lia|exact E]).
    assert (BY : bytes (header_at p)) by (apply bytes_pay; assumption).
    rewrite RemainingInBlock_eq. fold (end_at p).
    remember ((- p) mod 65536) as R.
    assert (G : (R < 40 -> bh_next_chunk (r_block r) = u64 (end_at p - (p + R))) ->
       forall K, p <= K < hend p -> K mod 65536 = 0 -> bh_next_chunk (blk_at K) = u64 (end_at p - K)).
    { intros G K K1 K2. pose proof (Z.mod_pos_bound (- p) 65536 ltac:(lia)) as RB.
      assert (K = p + R \/ p + R < K).
      { subst R. clear - K1 K2 m_p0. dml. }
      destruct (Z_lt_ge_dec R 40) as [RL|RG].
      - subst R. destruct (block_in_header p m_p0 m_b0 RL) as (B1 & B2 & B3 & B4 & B5).
        assert (K = p + (- p) mod 65536) as -> by (clear - K1 K2 B2 H5 H H1; dml).
        rewrite ES, B4 in m_blk0. rewrite m_blk0 in G by lia. apply G. assumption.
      - exfalso. assert (hend p = p + 40); [|lia].
        assert (M1 : 24 < p mod 65536 /\ p mod 65536 + 40 <= 65536).
        { clear - HeqR RG m_b0. unfold chunk_boundary in m_b0. dml. }
        apply boundary_eq; try lia; try assumption; [apply boundary_run; lia|rewrite payload_run; lia]. }
    destruct (Z.ltb_spec R ChunkHeaderSize) as [RL|RL]; cbn [andb]; unfold ChunkHeaderSize in RL.
    - subst R. destruct (block_in_header p m_p0 m_b0 RL) as (B1 & B2 & B3 & B4 & B5). 
      rewrite (u64_small (p + (- p) mod 65536)) by lia.
      destruct (Z.eqb_spec (bh_next_chunk (r_block r)) (u64 (end_at p - (p + (- p) mod 65536)))) as [EN|EN]; cbn [negb].
      2:{ right. eapply FA; [|reflexivity]. rewrite ES, B4 in m_blk0. rewrite m_blk0 in EN by lia.
          destruct (m_all0 (p + (- p) mod 65536) ltac:(lia) ltac:(lia) ltac:(lia)) as [V1 V2].
          apply (R_header_next p (p + (- p) mod 65536)); try assumption; [|lia]. split; [lia|]. split; [assumption|lia]. }
      specialize (G (fun _ => EN)).
      destruct (Z.eqb_spec p 0) as [P0|P0]; cbn [andb].
      + destruct (negb (ch_data_size (header_at p) =? 0) || negb (ch_chunk_type (header_at p) =? kFileSignature) || negb (ch_num_records (header_at p) =? 0) || negb (ch_decoded_data_size (header_at p) =? 0)) eqn:SG.
        * right. eapply FA; [|reflexivity]. apply R_sig; try assumption. intros (X1 & X2 & X3 & X4). rewrite X1, X2, X3, X4, !Z.eqb_refl in SG. discriminate.
        * split; [reflexivity|]. split; [reflexivity|]. split; [assumption|]. split; [assumption|]. intros _.
          repeat rewrite orb_false_iff in SG. rewrite !negb_false_iff, !Z.eqb_eq in SG. tauto.
      + split; [reflexivity|]. split; [reflexivity|]. split; [assumption|]. split; [assumption|]. intros; lia.
    - specialize (G ltac:(lia)). destruct (Z.eqb_spec p 0) as [P0|P0]; cbn [andb].
      + subst p. change ((- 0) mod 65536) with 0 in *. lia.
      + split; [reflexivity|]. split; [reflexivity|]. split; [assumption|]. split; [assumption|]. intros; lia.
  Qed.

  Lemma mid_off p r : mid p r -> zlen (pay content p (r_spos r)) = off p (r_spos r).
  Proof. intros []. apply zlen_pay; lia. Qed.

  Lemma down_run q n : 24 <= q mod 65536 -> 0 <= n -> q mod 65536 + n <= 65536 -> 24 <= (q + n) mod 65536 -> down (q + n) = down q.
  Proof. intros. unfold down. clear - H H0 H1 H2. dml. Qed.

  Lemma mid_run p r r' n : mid p r -> 24 <= r_spos r mod 65536 -> 0 <= n -> r_spos r mod 65536 + n <= 65536 ->
    r_spos r + n <= zlen content ->
    r_open r' = true -> r_failed r' = false -> r_rec r' = kNo -> r_pos r' = p -> zlen (r_header r') = 40 -> r_block r' = r_block r ->
    r_spos r' = r_spos r + n ->
    ztake (off p (r_spos r) + n) (r_header r') = ztake 40 (pay content p (r_spos r) ++ zslice (r_spos r) n content) ->
    r_data r' = zdrop 40 (pay content p (r_spos r) ++ zslice (r_spos r) n content) ->
    mid p r'.
  Proof.
    intros I M N0 N1 N2 O1 O2 O3 O4 O5 O6 O7 O8 O9. pose proof I as I0. destruct I.
    assert (PS : pay content p (r_spos r + n) = pay content p (r_spos r) ++ zslice (r_spos r) n content).
    { rewrite (pay_split content p (r_spos r)) by lia. f_equal. apply pay_piece; lia. }
    constructor; try assumption; rewrite ?O6, ?O7; try assumption; try lia.
    - rewrite zlen_pay by lia. rewrite payload_run by lia. rewrite PS.
      replace (pos_payload (r_spos r) + n - pos_payload p) with (off p (r_spos r) + n) by (unfold off; lia). exact O8.
    - rewrite PS. exact O9.
    - intros D1 D2. rewrite down_run in * by lia. apply m_blk0; assumption.
    - intros K K1 K2 K3. apply m_all0; try assumption. clear - K2 K3 M N0 N1. dml.
  Qed.

  Lemma header_run p r n : mid p r -> 24 <= r_spos r mod 65536 -> 0 <= n -> r_spos r mod 65536 + n <= 65536 ->
    r_spos r + n <= zlen content -> off p (r_spos r) + n <= 40 ->
    mid p (set_spos (r_spos r + n) (set_header (blit (off p (r_spos r)) (zslice (r_spos r) n content) (r_header r)) r)).
  Proof.
    intros I M N0 N1 N2 N3. pose proof (mid_off p r I) as ZO. pose proof (zlen_nonneg (pay content p (r_spos r))) as Z0.
    apply (mid_run p r _ n I M N0 N1 N2); destruct I; cbn [r_open r_failed r_rec r_pos r_header r_block r_spos r_data set_spos set_header];
      try assumption; try reflexivity.
    - unfold blit. rewrite !zlen_app, zlen_ztake, zlen_zdrop, zlen_zslice by lia. lia.
    - rewrite (ztake_all 40) by (rewrite zlen_app, ZO, zlen_zslice by lia; lia).
      unfold blit. rewrite ZO in m_hdr0. rewrite m_hdr0. rewrite (ztake_all 40) by (rewrite ZO; lia).
      rewrite app_assoc. rewrite ztake_app_l by (rewrite zlen_app, ZO, zlen_zslice by lia; lia).
      apply ztake_all. rewrite zlen_app, ZO, zlen_zslice by lia. lia.
    - rewrite m_data0. rewrite !zdrop_all; [reflexivity| |lia].
      rewrite zlen_app, ZO, zlen_zslice by lia. lia.
  Qed.

  Lemma rem_block q : 0 <= q -> 24 <= q mod 65536 -> RemainingInBlock q = 65536 - q mod 65536.
  Proof. intros. rewrite RemainingInBlock_eq. dml. Qed.

  Lemma ended_FailReading p r : r_open r = true -> r_failed r = false -> r_rec r = kNo -> r_pos r = p ->
    zlen content < hend p \/ (have_header p /\ (zlen content < dend p \/ zlen content < end_at p)) ->
    forall b r', FailReading r = (b, r') -> b = false /\ ended_at p r'.
  Proof.
    intros A B C D W b r' E. unfold FailReading in E. destruct (r_pos r <? r_spos r); inversion E; subst b r'; (split; [reflexivity|]); constructor; cbn; assumption.
  Qed.

  Lemma header_loop_static p : forall fuel r, mid p r -> off p (r_spos r) < 40 -> 40 - off p (r_spos r) < Z.of_nat fuel ->
    exists b r', ReadChunkHeader_loop hash fuel content r = Some (b, r') /\
      if b then mid p r' /\ r_spos r' = hend p /\ r_header r' = header_at p /\ good_header p
      else ended_at p r' \/ failed_at p r'.
  Proof.
    induction fuel as [|fuel IH]; intros r I HO HF; [lia|].
    cbn [ReadChunkHeader_loop].
    assert (INS : r_spos r < hend p).
    { destruct I. destruct (hend_spec p m_p0 m_b0) as (_ & _ & _ & H4 & _). apply H4; [lia|exact HO]. }
    assert (STEP : exists (b : bool) (r1 : reader), (if 0 <? RemainingInBlockHeader (r_spos r) then ReadInnerBlockHeader hash content r else (true, r)) = (b, r1) /\
       (if b then mid p r1 /\ 24 <= r_spos r1 mod 65536 /\ off p (r_spos r1) = off p (r_spos r) else ended_at p r1 \/ failed_at p r1)).
    { destruct (m_al _ _ I) as [M|M].
      - rewrite RemHeader by lia. rewrite M. change (0 <? 24 - 0) with true. cbv iota.
        pose proof (inner_static p r I M (or_introl INS)) as X.
        destruct (ReadInnerBlockHeader hash content r) as [[|] r1]; eexists _, _; (split; [reflexivity|]); cbv beta iota in *; [|exact X].
        destruct X as (-> & X2 & X3 & X4 & X5). split; [exact X3|]. cbn [up_block r_spos set_spos].
        pose proof (m_p _ _ I). pose proof (m_spos _ _ I).
        split; [clear - M; dml|]. unfold off, pos_payload. clear - M. dml.
      - rewrite RemHeader0 by assumption. change (0 <? 0) with false. cbv iota. eexists _, _. split; [reflexivity|]. cbv iota. auto. }
    destruct STEP as (b & r1 & -> & X). destruct b; cbn [negb]; [|eexists _, _; split; [reflexivity|exact X]].
    destruct X as (I1 & M1 & O1). 
    assert (ZO : 0 <= off p (r_spos r1)) by (rewrite <- (mid_off p r1 I1); apply zlen_nonneg).
    pose proof I1 as I1'. destruct I1'.
    rewrite m_pos0. rewrite DistanceWithoutOverhead_eq by lia. fold (off p (r_spos r1)).
    unfold ChunkHeaderSize. rewrite (u64_small (40 - off p (r_spos r1))) by lia.
    rewrite rem_block by lia. pose proof (Z.mod_pos_bound (r_spos r1) 65536 ltac:(lia)) as MB.
    remember (Z.min (40 - off p (r_spos r1)) (65536 - r_spos r1 mod 65536)) as n.
    unfold src_read. destruct (Z.leb_spec (r_spos r1 + n) (zlen content)) as [L|L]; cbv iota beta.
    2:{ cbn [negb].
        destruct (FailReading (set_spos (Z.max (r_spos r1) (zlen content)) (set_header (blit (off p (r_spos r1)) (zdrop (r_spos r1) content) (r_header r1)) r1))) as [b r'] eqn:F.
        assert (WHY : zlen content < hend p).
        { destruct (hend_spec p m_p0 m_b0) as (H1 & H2 & H3 & H4 & H5). 
          assert (r_spos r1 + n <= hend p); [|lia]. 
          apply boundary_le; try lia; [apply boundary_run; lia|]. rewrite payload_run by lia. unfold off in *. lia. }
        eapply ended_FailReading in F; [|cbn; (eassumption || (left; exact WHY))..]. destruct F as [-> F]. eexists _, _. split; [reflexivity|]. cbv iota. auto. }
    cbn [negb].
    assert (I2 := header_run p r1 n I1 M1 ltac:(lia) ltac:(lia) L ltac:(lia)).
    remember (set_spos (r_spos r1 + n) (set_header (blit (off p (r_spos r1)) (zslice (r_spos r1) n content) (r_header r1)) r1)) as r2.
    assert (S2 : r_spos r2 = r_spos r1 + n) by (subst r2; reflexivity).
    assert (O2 : off p (r_spos r2) = off p (r_spos r1) + n). { rewrite S2. unfold off. rewrite payload_run by lia. lia. }
    destruct (Z.ltb_spec n (40 - off p (r_spos r1))) as [Lt|Ge].
    - apply IH; [assumption|lia|lia].
    - assert (ES : r_spos r2 = hend p).
      { destruct (hend_spec p m_p0 m_b0) as (H1 & H2 & H3 & H4 & H5).
        apply boundary_eq; try lia; try assumption; [rewrite S2; apply boundary_run; lia|]. unfold off in *. lia. }
      pose proof (check_header_static p r2 I2 ES) as C.
      destruct (CheckChunkHeader hash r2) as [[|] r3]; eexists _, _; (split; [reflexivity|]); cbv iota; [|exact C].
      destruct C as (-> & C1 & C2). auto.
  Qed.

  (** ** The data *)
  Record mid2 (p : Z) (r : reader) : Prop := {
    n_mid : mid p r; n_header : r_header r = header_at p; n_good : good_header p; n_spos : hend p <= r_spos r;
    n_off : off p (r_spos r) <= 40 + ch_data_size (header_at p);
    n_end : off p (r_spos r) = 40 + ch_data_size (header_at p) -> r_spos r = dend p;
    n_next : forall K, p <= K -> K mod 65536 = 0 -> K + 24 <= r_spos r -> bh_next_chunk (blk_at K) = u64 (end_at p - K) }.

  Lemma hend_fact2 p K : 0 <= p -> chunk_boundary p -> p <= K -> K mod 65536 = 0 -> K + 24 <= hend p -> K < hend p.
  Proof. intros. lia. Qed.

  Lemma mid2_start p r : mid p r -> r_spos r = hend p -> r_header r = header_at p -> good_header p -> mid2 p r.
  Proof.
    intros I S H G. destruct (header_ranges p) as [R _]. pose proof I as I0. destruct I.
    destruct (hend_spec p m_p0 m_b0) as (H1 & H2 & H3 & H4 & H5). destruct (dend_spec p m_p0 m_b0) as (D1 & D2 & D3 & D4).
    constructor; try assumption; try (rewrite S; unfold off; lia).
    - rewrite S. intros E. apply boundary_eq; try assumption; try lia. unfold off in *. lia.
    - intros K K1 K2 K3. apply G; lia.
  Qed.

  Lemma data_loop_static p : forall fuel r, mid2 p r -> 
    Z.max 0 (zlen content - r_spos r) < Z.of_nat fuel ->
    exists (b : bool) (r' : reader), (ReadData_loop hash fuel content (end_at p) r = Some (b, r')) /\
      if b then mid2 p r' /\ r_spos r' = dend p else ended_at p r' \/ failed_at p r'.
  Proof.
    induction fuel as [|fuel IH]; intros r I HF; [lia|].
    pose proof (n_mid _ _ I) as IM0. pose proof (m_p _ _ IM0) as m_p0. pose proof (m_b _ _ IM0) as m_b0.
    pose proof (m_spos _ _ IM0) as m_spos0. pose proof (n_header _ _ I) as n_header0. pose proof (n_spos _ _ I) as n_spos0.
    destruct (hend_spec p m_p0 m_b0) as (_ & _ & H3 & _ & _). destruct (dend_spec p m_p0 m_b0) as (_ & D2 & D3 & D4).
    pose proof (mid_off p r IM0) as ZP.
    assert (O40 : 40 <= off p (r_spos r)).
    { unfold off. pose proof (proj1 (hend_spec p m_p0 m_b0)). pose proof (pos_payload_mono (hend p) (r_spos r) ltac:(clear - H n_spos0 m_p0; lia)). lia. }
    clear H3.
    assert (DL : zlen (r_data r) = off p (r_spos r) - 40) by (rewrite (m_data _ _ IM0), zlen_zdrop, ZP; clear - O40; lia).
    cbn [ReadData_loop]. rewrite n_header0, DL.
    destruct (Z.ltb_spec (off p (r_spos r) - 40) (ch_data_size (header_at p))) as [LT|GE].
    2:{ eexists _, _. split; [reflexivity|]. cbv iota. split; [assumption|]. apply (n_end _ _ I). pose proof (n_off _ _ I). lia. }
    assert (INS : r_spos r < dend p) by (apply D4; lia).
    pose proof (proj1 (n_good _ _ I)) as HAVE.
    assert (STEP : exists (b : bool) (r1 : reader), (if 0 <? RemainingInBlockHeader (r_spos r) then
              let '(ok, r0) := ReadInnerBlockHeader hash content r in
              if negb ok then (false, r0)
              else if negb (bh_next_chunk (r_block r0) =? u64 (end_at p - RoundDownToBlockBoundary (r_spos r))) then
                fail_rec kFindChunk (r_spos r0) r0
              else (true, r0) else (true, r)) = (b, r1) /\
       (if b then mid2 p r1 /\ 24 <= r_spos r1 mod 65536 /\ r_spos r <= r_spos r1 /\ off p (r_spos r1) = off p (r_spos r) /\ r_data r1 = r_data r
        else ended_at p r1 \/ failed_at p r1)).
    { destruct (m_al _ _ IM0) as [M|M].
      - rewrite RemHeader by lia. rewrite M. change (0 <? 24 - 0) with true. cbv iota zeta.
        pose proof (inner_static p r IM0 M (or_intror (conj HAVE INS))) as X.
        destruct (ReadInnerBlockHeader hash content r) as [[|] r1]; [|eexists _, _; split; [reflexivity|exact X]].
        destruct X as (-> & X2 & X3 & X4 & X5). cbn [negb].
        replace (RoundDownToBlockBoundary (r_spos r)) with (r_spos r) by (unfold RoundDownToBlockBoundary; blk; lia).
        change (r_block (up_block r)) with (blk_at (r_spos r)).
        destruct (Z.eqb_spec (bh_next_chunk (blk_at (r_spos r))) (u64 (end_at p - r_spos r))) as [EN|EN]; cbn [negb].
        + eexists _, _. split; [reflexivity|]. cbv iota. cbn [up_block r_spos set_spos r_data set_block].
          assert (OE : off p (r_spos r + 24) = off p (r_spos r)) by (unfold off, pos_payload; clear - M; dml).
          split; [|split; [clear - M; dml|split; [lia|split; [exact OE|reflexivity]]]].
          constructor; cbn [up_block r_spos set_spos r_data set_block r_header]; rewrite ?OE; try assumption; try apply I; try lia.
          intros K K1 K2 K3. destruct (Z_le_gt_dec (K + 24) (r_spos r)) as [Le|Gt]; [apply (n_next _ _ I); assumption|].
          assert (K = r_spos r) as -> by (clear - M K2 K3 Gt; dml). exact EN.
        + unfold fail_rec. eexists _, _. split; [reflexivity|]. cbv iota. right.
          constructor; cbn [r_open r_failed r_pos r_rec r_recpos r_spos r_header r_block up_block set_spos set_block set_failed set_rec];
            try assumption; try apply IM0; try reflexivity; try lia; [|apply zlen_blk_at; lia].
          apply R_next; try assumption. split; [lia|]. split; [assumption|lia].
      - rewrite RemHeader0 by assumption. change (0 <? 0) with false. cbv iota. eexists _, _. split; [reflexivity|]. cbv iota.
        split; [assumption|]. split; [assumption|]. split; [lia|]. auto. }
    destruct STEP as (b & r1 & -> & X). destruct b; cbn [negb]; [|eexists _, _; split; [reflexivity|exact X]].
    destruct X as (I1 & M1 & S1 & O1 & DD).
    pose proof (n_mid _ _ I1) as IM. pose proof (m_spos _ _ IM) as SP1. pose proof (mid_off p r1 IM) as ZP1. rewrite O1 in ZP1.
    pose proof (proj1 (header_ranges p)) as R.
    rewrite rem_block by lia. pose proof (Z.mod_pos_bound (r_spos r1) 65536 ltac:(lia)) as MB.
    rewrite DD, DL. remember (Z.min (ch_data_size (header_at p) - (off p (r_spos r) - 40)) (65536 - r_spos r1 mod 65536)) as n.
    unfold src_read. destruct (Z.leb_spec (r_spos r1 + n) (zlen content)) as [L|L]; cbv iota beta.
    2:{ cbn [negb].
        destruct (FailReading (set_spos (Z.max (r_spos r1) (zlen content)) (set_data (r_data r ++ zdrop (r_spos r1) content) r1))) as [b r'] eqn:F.
        assert (WHY : zlen content < dend p).
        { assert (r_spos r1 + n <= dend p); [|lia]. 
          apply boundary_le; try lia; [apply boundary_run; lia|]. rewrite payload_run by lia. unfold off in *. lia. }
        destruct IM. eapply ended_FailReading in F; [|cbn; (eassumption || (right; split; [exact HAVE|left; exact WHY]))..]. destruct F as [-> F]. eexists _, _. split; [reflexivity|]. cbv iota. auto. }
    cbn [negb].
    remember (set_spos (r_spos r1 + n) (set_data (r_data r ++ zslice (r_spos r1) n content) r1)) as r2.
    assert (S2 : r_spos r2 = r_spos r1 + n) by (subst r2; reflexivity).
    assert (O2 : off p (r_spos r2) = off p (r_spos r1) + n). { rewrite S2. unfold off. rewrite payload_run by lia. lia. }
    assert (M2 : mid p r2).
    { apply (mid_run p r1 r2 n IM M1); try lia; subst r2;
        cbn [r_open r_failed r_rec r_pos r_header r_block r_spos r_data set_spos set_data]; try apply IM; try reflexivity.
      - pose proof (m_hdr _ _ IM) as HH. rewrite ZP1 in HH. pose proof (m_hl _ _ IM).
        rewrite ztake_all in HH by lia. rewrite ztake_all by lia. rewrite HH. rewrite ztake_app_l by lia. reflexivity.
      - rewrite <- DD. rewrite (m_data _ _ IM). rewrite zdrop_app_l by lia. reflexivity. }
    apply IH.
    - constructor; try assumption; try lia.
      + subst r2. cbn [r_header set_spos set_data]. apply (n_header _ _ I1).
      + apply (n_good _ _ I1).
      + intros E. apply boundary_eq; try lia; try assumption; [rewrite S2; apply boundary_run; lia|]. unfold off in *. lia.
      + intros K K1 K2 K3. apply (n_next _ _ I1); try assumption. rewrite S2 in K3. clear - K2 K3 M1 MB Heqn LT. 
        assert (0 < n) by lia. assert (r_spos r1 mod 65536 + n <= 65536) by lia. clear - K2 K3 M1 H H0. dml.
    - lia.
  Qed.

  (** ** ReadChunk *)
  Definition good_chunk (p : Z) (c : chunk) : Prop :=
    good_header p /\ c = MkChunk (header_at p) (data_at p) /\
    zlen (header_at p) = 40 /\ zlen (data_at p) = ch_data_size (header_at p) /\
    hash (data_at p) = ch_data_hash (header_at p) /\
    (forall K, p <= K < dend p -> K mod 65536 = 0 -> 
       blk_valid K /\ bh_previous_chunk (blk_at K) = K - p /\ bh_next_chunk (blk_at K) = u64 (end_at p - K)) /\
    p + 40 <= dend p <= end_at p /\ end_at p <= zlen content.

  Lemma end_at_spec p : 0 <= p -> chunk_boundary p -> dend p <= zlen content ->
    chunk_boundary (end_at p) /\ p + ch_num_records (header_at p) <= end_at p /\ dend p <= end_at p < 2 ^ 64 /\
    end_at p = chunk_end (ch_data_size (header_at p)) (ch_num_records (header_at p)) p.
  Proof.
    intros Hp Hb HL. destruct (header_ranges p) as [R R2]. destruct (dend_spec p Hp Hb) as (D1 & D2 & D3 & D4).
    destruct (hend_spec p Hp Hb) as (H1 & H2 & H3 & H4 & H5).
    assert (DS : p + 40 + ch_data_size (header_at p) <= dend p).
    { destruct (add_ov_spec p (40 + ch_data_size (header_at p)) Hp Hb ltac:(lia)) as (A & _). fold (dend p) in A. lia. }
    assert (E : end_at p = chunk_end (ch_data_size (header_at p)) (ch_num_records (header_at p)) p).
    { unfold end_at. apply ChunkEnd_eq; try assumption; try lia. unfold no_overflow.
      change (2 ^ 64) with 18446744073709551616 in *. change (2 ^ 62) with 4611686018427387904 in *.
      assert ((40 + ch_data_size (header_at p)) / 65512 <= 40 + ch_data_size (header_at p)) by (apply Z.div_le_upper_bound; lia). 
      assert ((40 + ch_data_size (header_at p)) / 65512 * 24 <= 40 + ch_data_size (header_at p)).
      { clear - R. dml. }
      lia. }
    destruct (chunk_end_spec (ch_data_size (header_at p)) (ch_num_records (header_at p)) p Hp Hb) as (C1 & C2 & C3 & C4 & C5); try lia.
    rewrite <- E in C1, C2, C3, C4, C5. split; [assumption|]. split; [assumption|]. split; [|assumption]. split.
    - apply boundary_le; try lia; try assumption. unfold off in D3. lia.
    - rewrite E. unfold chunk_end. destruct (round_up_spec (p + ch_num_records (header_at p)) ltac:(lia)) as (X & _).
      fold (dend p). lia.
  Qed.

  Theorem ReadChunk_static p r : start p r ->
    exists (o : option chunk) (r' : reader), (ReadChunk hash content r = Some (o, r')) /\
      match o with
      | Some c => good_chunk p c /\ fresh r' (end_at p)
      | None => ended_at p r' \/ failed_at p r'
      end.
  Proof.
    intros S. pose proof S as S0. destruct S.
    unfold ReadChunk, PullChunkHeader, r_ok. rewrite s_open0, s_failed0. cbn [negb andb].
    cbn [set_trunc r_spos r_pos].
    destruct (hend_spec p ltac:(lia) s_b0) as (H1 & H2 & H3 & H4 & H5).
    assert (SP : p <= r_spos r <= zlen content) by (destruct s_spos0 as [->|(_ & (-> & ?) & _)]; lia).
    rewrite s_pos0. destruct (Z.ltb_spec (r_spos r) p); [lia|].
    assert (O0 : off p (r_spos r) = 0).
    { unfold off. destruct s_spos0 as [->|(H' & (-> & ?) & _)]; [lia|]. unfold pos_payload. clear - H'. dml. }
    assert (IM : mid p (set_trunc false r)).
    { destruct (mid_start p r S0). constructor; assumption. }
    rewrite DistanceWithoutOverhead_eq by lia. fold (off p (r_spos r)). rewrite O0. change (0 <? ChunkHeaderSize) with true. cbv iota.
    unfold ReadChunkHeader.
    destruct (header_loop_static p 42 (set_trunc false r) IM) as (b & r1 & -> & X); cbn [set_trunc r_spos]; try lia.
    destruct b; cbv iota; [|eexists _, _; split; [reflexivity|exact X]].
    destruct X as (X1 & X2 & X3 & X4).
    assert (I2 : mid2 p r1) by (apply mid2_start; assumption).
    rewrite X3, (m_pos _ _ X1). fold (end_at p).
    destruct (data_loop_static p (Datatypes.S (length content)) r1 I2) as (b & r2 & -> & Y); [unfold zlen in *; lia|].
    destruct b; cbv iota; [|eexists _, _; split; [reflexivity|exact Y]].
    destruct Y as (Y1 & Y2). pose proof (n_mid _ _ Y1) as YM.
    pose proof (m_spos _ _ YM) as YS. 
    destruct (end_at_spec p ltac:(lia) s_b0 ltac:(lia)) as (E1 & E2 & E3 & E4).
    destruct (dend_spec p ltac:(lia) s_b0) as (D1 & D2 & D3 & D4).
    assert (PH : pay content p (dend p) = header_at p ++ data_at p).
    { unfold header_at, data_at. apply pay_split; lia. }
    assert (ZH : zlen (header_at p) = 40) by (unfold header_at; rewrite zlen_pay by lia; lia).
    assert (ZD : zlen (data_at p) = ch_data_size (header_at p)) by (unfold data_at; rewrite zlen_pay by lia; unfold off in D3; lia).
    assert (DT : r_data r2 = data_at p).
    { rewrite (m_data _ _ YM), Y2, PH. rewrite zdrop_app_r by lia. rewrite ZH. reflexivity. }
    assert (HD : r_header r2 = header_at p) by apply Y1.
    unfold src_seek. destruct (Z.leb_spec (end_at p) (zlen content)) as [L|L]; cbv iota beta; cbn [negb].
    2:{ unfold FailReading. cbn [snd]. eexists _, _. split; [reflexivity|]. cbv iota. left. destruct YM.
        assert (WHY : zlen content < hend p \/ (have_header p /\ (zlen content < dend p \/ zlen content < end_at p))).
        { right. split; [apply X4|right; exact L]. }
        cbn [r_pos r_spos set_spos]. destruct (_ <? _); constructor; cbn; assumption. }
    cbn [r_data r_header set_spos]. rewrite DT, HD.
    destruct (Z.eqb_spec (hash (data_at p)) (ch_data_hash (header_at p))) as [E|E]; cbn [negb].
    2:{ eexists _, _. split; [reflexivity|]. cbv iota. right. destruct YM. unfold fail_rec. cbn [snd].
        constructor; cbn [r_open r_failed r_pos r_rec r_recpos r_spos r_header r_block set_spos set_failed set_rec]; try assumption; try reflexivity; try lia.
        apply R_data; [apply X4|lia|assumption]. }
    eexists _, _. split; [reflexivity|]. cbv iota. split.
    - split; [assumption|]. split; [reflexivity|]. split; [assumption|]. split; [assumption|]. split; [assumption|].
      split; [|lia]. intros K K1 K2.
      assert (K + 24 <= dend p). { clear - K1 K2 D2. unfold chunk_boundary in D2. dml. }
      split; [apply (m_all _ _ YM); lia|]. split; [apply (m_all _ _ YM); lia|]. apply (n_next _ _ Y1); lia.
    - destruct YM. constructor; cbn; try assumption; reflexivity.
  Qed.
End Static.
