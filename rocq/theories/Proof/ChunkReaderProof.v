(** Reading a (possibly truncated, possibly still growing) image of a chunk. *)
From Verif Require Import Base.Bytes Model.Endian Model.Block Model.Chunk Model.ChunkWriter Model.ChunkReader
  Spec.BlockSpec Proof.EndianProof Proof.BlockProof Proof.ChunkWriterProof.

Lemma zlen_zslice {A} p n (l : list A) : 0 <= p -> 0 <= n -> p + n <= zlen l -> zlen (zslice p n l) = n.
Proof. intros. unfold zslice. rewrite zlen_ztake, zlen_zdrop. lia. Qed.
Lemma zslice_rest {A} p (l : list A) : 0 <= p <= zlen l -> zslice p (zlen l - p) l = zdrop p l.
Proof. intros. unfold zslice. apply ztake_all. rewrite zlen_zdrop. lia. Qed.
Lemma ztake_app_zslice {A} a n (l : list A) : 0 <= a -> 0 <= n -> ztake a l ++ zslice a n l = ztake (a + n) l.
Proof. intros. unfold zslice. rewrite ztake_split by lia. reflexivity. Qed.

(** Filling an array whose first [off] bytes agree with [full]. *)
Lemma blit_prefix off n dst full : 0 <= off -> 0 <= n -> off + n <= zlen dst -> zlen dst = zlen full ->
  ztake off dst = ztake off full ->
  zlen (blit off (zslice off n full) dst) = zlen dst /\
  ztake (off + n) (blit off (zslice off n full) dst) = ztake (off + n) full.
Proof.
  intros H0 H1 H2 HL H3. unfold blit. rewrite zlen_zslice by lia. split.
  - rewrite !zlen_app, zlen_zslice, zlen_ztake, zlen_zdrop by lia. lia.
  - rewrite app_assoc, H3, ztake_app_zslice by lia.
    rewrite ztake_app_l by (rewrite zlen_ztake; lia). rewrite ztake_all by (rewrite zlen_ztake; lia). reflexivity.
Qed.
Lemma blit_all off n dst full k : 0 <= off -> 0 <= n -> off + n <= zlen dst -> zlen dst = zlen full ->
  ztake off dst = ztake off full -> k <= off + n ->
  ztake k (blit off (zslice off n full) dst) = ztake k full.
Proof.
  intros. destruct (blit_prefix off n dst full) as [_ E]; try assumption.
  pose proof (f_equal (ztake k) E) as E'. rewrite !ztake_ztake in E'. rewrite !Z.min_l in E' by lia. exact E'.
Qed.

(** A reader standing at a chunk boundary with nothing read yet. *)
Record fresh (r : reader) (p : Z) : Prop := {
  f_open : r_open r = true; f_failed : r_failed r = false; f_rec : r_rec r = kNo;
  f_pos : r_pos r = p; f_spos : r_spos r = p; f_hl : zlen (r_header r) = 40; f_bl : zlen (r_block r) = 24;
  f_data : r_data r = [] }.

Section Reader.
  Variable hash : list Z -> Z.
  Hypothesis hash_range : forall l, 0 <= hash l < 2 ^ 64.

  Definition sig_ok (c : chunk) (cb : Z) : Prop :=
    cb = 0 -> c_data c = [] /\ ch_chunk_type (c_header c) = kFileSignature /\
              ch_num_records (c_header c) = 0 /\ ch_decoded_data_size (c_header c) = 0.
  (** The header hash and the data hash of the chunk are right. *)
  Definition wf_hash (c : chunk) : Prop :=
    ch_stored_header_hash (c_header c) = ch_computed_header_hash hash (c_header c) /\
    ch_data_hash (c_header c) = hash (c_data c).

  Section OneChunk.
  Variables (c : chunk) (cb : Z).
  Hypothesis cb0 : 0 <= cb.
  Hypothesis cbb : chunk_boundary cb.
  Hypothesis cwf : wf_size c.
  Hypothesis chash : wf_hash c.
  Hypothesis cfit : cfits c cb.
  Hypothesis csig : sig_ok c cb.
  Local Notation ce := (cend c cb).
  Local Notation pl := (cpayload c).
  Local Notation bh K := (BlockHeader hash (K - cb) (ce - K)).

  (** The content agrees with the image of the chunk as far as it goes. *)
  Definition agree (content : list Z) : Prop :=
    forall p n, cb <= p -> 0 <= n -> p + n <= ce -> p + n <= zlen content ->
      zslice p n content = map (cbyte hash cb ce pl) (zseq p n).

  (** How much of the payload lies before [p]. *)
  Definition off (p : Z) : Z := pos_payload p - pos_payload cb.

  Definition down (p : Z) : Z := p - p mod 65536.

  Definition dend : Z := add_ov cb (40 + zlen (c_data c)).

  Record inv (content : list Z) (r : reader) : Prop := {
    i_open : r_open r = true;
    i_failed : r_failed r = false;
    i_rec : r_rec r = kNo;
    i_pos : r_pos r = cb;
    i_lo : cb <= r_spos r;
    i_hi : r_spos r <= ce;
    i_len : r_spos r <= zlen content;
    i_hl : zlen (r_header r) = 40;
    i_hdr : ztake (off (r_spos r)) (r_header r) = ztake (off (r_spos r)) (c_header c);
    i_data : r_data r = ztake (off (r_spos r) - 40) (c_data c);
    i_bl : zlen (r_block r) = 24;
    i_blk : r_spos r <= dend -> cb <= down (r_spos r) ->
            ztake (r_spos r - down (r_spos r)) (r_block r)
            = ztake (r_spos r - down (r_spos r)) (bh (down (r_spos r)))
  }.

  Lemma ce_facts : 
    ChunkEnd (ch_data_size (c_header c)) (ch_num_records (c_header c)) cb = ce /\
    chunk_boundary ce /\ cb + 40 <= ce < 2 ^ 64 /\
    zlen pl = 40 + zlen (c_data c) /\ pos_payload cb + zlen pl <= pos_payload ce /\
    cb + ch_num_records (c_header c) <= ce.
  Proof. apply cend_spec; assumption. Qed.

  Lemma off_mono a b : cb <= a <= b -> off a <= off b.
  Proof. intros. unfold off. pose proof (pos_payload_mono a b). lia. Qed.
  Lemma off_nonneg a : cb <= a -> 0 <= off a.
  Proof. intros. unfold off. pose proof (pos_payload_mono cb a). lia. Qed.

  (** Header end. *)
  Definition hend : Z := add_ov cb 40.
  Lemma hend_facts : off hend = 40 /\ chunk_boundary hend /\ cb + 40 <= hend <= ce.
  Proof.
    destruct (add_ov_spec cb 40 cb0 cbb ltac:(lia)) as (A & B & C & _).
    pose proof ce_facts as (_ & E1 & E2 & E3 & E4 & _). unfold hend, off. pose proof (zlen_nonneg (c_data c)).
    split; [lia|]. split; [assumption|]. split; [lia|].
    apply boundary_le; try assumption; lia.
  Qed.
  Lemma dend_facts : off dend = 40 + zlen (c_data c) /\ chunk_boundary dend /\ hend <= dend <= ce.
  Proof.
    pose proof (zlen_nonneg (c_data c)).
    destruct (add_ov_spec cb (40 + zlen (c_data c)) cb0 cbb ltac:(lia)) as (A & B & C & _).
    pose proof ce_facts as (_ & E1 & E2 & E3 & E4 & _). destruct hend_facts as (HE1 & HE2 & HE3).
    unfold dend, off in *. split; [lia|]. split; [assumption|]. split; apply boundary_le; try assumption; lia.
  Qed.

  (** Inside a block header of this chunk. *)
  Lemma in_header_facts p : cb <= p < ce -> p mod 65536 < 24 ->
    cb <= down p /\ down p mod 65536 = 0 /\ down p + 24 < ce /\ down p <= p < down p + 24 /\
    off (down p + 24) = off p.
  Proof.
    intros Hp Hm. pose proof ce_facts as (_ & Hb & _). unfold chunk_boundary in cbb, Hb. unfold down, off, pos_payload.
    pose proof (Z.mod_pos_bound p 65536 ltac:(lia)).
    assert ((p - p mod 65536) mod 65536 = 0) by dml.
    assert (cb <= p - p mod 65536) by (clear Hb hash_range cfit; dml).
    split; [assumption|]. split; [assumption|]. split; [clear hash_range cfit; dml|]. split; [lia|].
    clear - H H0 Hm H1 cb0. dml.
  Qed.

  Definition upd_block content (r : reader) n :=
    set_spos (r_spos r + n) (set_block (blit (r_spos r mod 65536) (zslice (r_spos r) n content) (r_block r)) r).

  Lemma spos_zlen (content : list Z) p : p <= zlen content -> 0 <= p -> zdrop p content = zslice p (zlen content - p) content.
  Proof. intros. symmetry. apply zslice_rest. lia. Qed.

  (** Reading (part of) the rest of a block header. *)
  Lemma block_piece content r n : agree content -> inv content r -> r_spos r < dend -> r_spos r mod 65536 < 24 ->
    0 <= n -> r_spos r mod 65536 + n <= 24 -> r_spos r + n <= zlen content ->
    inv content (upd_block content r n) /\
    ztake (r_spos r mod 65536 + n) (r_block (upd_block content r n)) = ztake (r_spos r mod 65536 + n) (bh (down (r_spos r))).
  Proof.
    intros A I Hlt Hm Hn H24 Hl. destruct I. destruct dend_facts as (DE1 & DE2 & DE3).
    destruct (in_header_facts (r_spos r) ltac:(lia) Hm) as (D1 & D2 & D3 & D4 & D5).
    pose proof (Z.mod_pos_bound (r_spos r) 65536 ltac:(lia)) as M.
    assert (ED : r_spos r = down (r_spos r) + r_spos r mod 65536) by (unfold down; lia).
    assert (S : zslice (r_spos r) n content = zslice (r_spos r mod 65536) n (bh (down (r_spos r)))).
    { rewrite A by lia. rewrite ED at 1. apply cbyte_header; lia. }
    specialize (i_blk0 ltac:(lia) D1).
    replace (r_spos r - down (r_spos r)) with (r_spos r mod 65536) in i_blk0 by lia.
    assert (OFF : off (r_spos r + n) = off (r_spos r)).
    { pose proof (off_mono (r_spos r) (r_spos r + n)). pose proof (off_mono (r_spos r + n) (down (r_spos r) + 24)). lia. }
    destruct (blit_prefix (r_spos r mod 65536) n (r_block r) (bh (down (r_spos r)))) as [BL BT];
      try assumption; try lia; try (rewrite zlen_BlockHeader; lia).
    unfold upd_block. rewrite S. split.
    - constructor; cbn [r_spos r_pos r_header r_data r_block r_open r_failed r_trunc r_rec r_recpos set_spos set_block]; try assumption; try lia.
      + rewrite OFF; assumption.
      + rewrite OFF; assumption.
      + intros _ _.
        destruct (Z_lt_ge_dec n (65536 - r_spos r mod 65536)) as [Hs|Hs]; [|lia].
        assert (DD : down (r_spos r + n) = down (r_spos r)).
        { unfold down. clear - Hs Hn M. assert ((r_spos r + n) mod 65536 = r_spos r mod 65536 + n) by dml. lia. }
        rewrite DD. replace (r_spos r + n - down (r_spos r)) with (r_spos r mod 65536 + n) by lia. exact BT.
    - cbn [r_block set_spos set_block]. exact BT.
  Qed.

  Lemma RemHeader p : p mod 65536 < 24 -> RemainingInBlockHeader p = 24 - p mod 65536.
  Proof. intros. unfold RemainingInBlockHeader, SaturatingSub. blk. destruct (Z.ltb_spec 24 (p mod 65536)); lia. Qed.
  Lemma RemHeader0 p : 24 <= p mod 65536 -> RemainingInBlockHeader p = 0.
  Proof. intros. unfold RemainingInBlockHeader, SaturatingSub. blk. destruct (Z.ltb_spec 24 (p mod 65536)); lia. Qed.

  Lemma bh_ok K : cb <= K -> K < ce -> 
    bytes (bh K) /\ bh_previous_chunk (bh K) = K - cb /\ bh_next_chunk (bh K) = ce - K /\
    bh_stored_header_hash (bh K) = bh_computed_header_hash hash (bh K).
  Proof.
    intros H1 H2. pose proof ce_facts as (_ & _ & L & _).
    pose proof (BlockHeader_codec hash hash_range (K - cb) (ce - K) ltac:(lia) ltac:(lia)) as (A & B & C & D & E). auto.
  Qed.

  (** What a partial read does: the target is reached, or the content ends before. *)
  Definition stuck_at_end (content : list Z) (r' : reader) : Prop :=
    inv content r' /\ r_spos r' = zlen content /\ r_trunc r' = (cb <? zlen content).

  Lemma FailReading_end content r : inv content r -> r_trunc r = false -> r_spos r = zlen content ->
    exists r', FailReading r = (false, r') /\ stuck_at_end content r'.
  Proof.
    intros I T E. unfold FailReading. rewrite (i_pos _ _ I), E.
    eexists; split; [reflexivity|]. unfold stuck_at_end. destruct (Z.ltb_spec cb (zlen content)).
    - split; [destruct I; constructor; cbn; assumption|]. cbn. auto.
    - auto.
  Qed.

  Lemma ReadInnerBlockHeader_spec content r : agree content -> inv content r -> r_trunc r = false ->
    r_spos r < dend -> r_spos r mod 65536 < 24 ->
    (down (r_spos r) + 24 <= zlen content ->
       exists r', ReadInnerBlockHeader hash content r = (true, r') /\ inv content r' /\ r_trunc r' = false /\
         r_spos r' = down (r_spos r) + 24 /\ bh_next_chunk (r_block r') = ce - down (r_spos r) /\
         r_data r' = r_data r /\ r_header r' = r_header r) /\
    (zlen content < down (r_spos r) + 24 ->
       exists r', ReadInnerBlockHeader hash content r = (false, r') /\ stuck_at_end content r').
  Proof.
    intros A I T Hlt Hm. destruct dend_facts as (DE1 & DE2 & DE3).
    pose proof (i_lo _ _ I) as Lo. pose proof (i_len _ _ I) as Le.
    destruct (in_header_facts (r_spos r) ltac:(lia) Hm) as (D1 & D2 & D3 & D4 & D5).
    assert (ED : r_spos r = down (r_spos r) + r_spos r mod 65536) by (unfold down; lia).
    pose proof (Z.mod_pos_bound (r_spos r) 65536 ltac:(lia)) as M.
    unfold ReadInnerBlockHeader, ReadBlockHeader. rewrite RemHeader by assumption. unfold src_read.
    replace (BlockHeaderSize - (24 - r_spos r mod 65536)) with (r_spos r mod 65536) by (blk; lia).
    split.
    - intros HL. destruct (Z.leb_spec (r_spos r + (24 - r_spos r mod 65536)) (zlen content)); [|lia].
      destruct (block_piece content r (24 - r_spos r mod 65536)) as [I' B']; try assumption; try lia.
      fold (upd_block content r (24 - r_spos r mod 65536)).
      remember (upd_block content r (24 - r_spos r mod 65536)) as r1.
      assert (S1 : r_spos r1 = down (r_spos r) + 24) by (subst r1; cbn [upd_block r_spos set_spos]; lia).
      assert (T1 : r_trunc r1 = r_trunc r /\ r_data r1 = r_data r /\ r_header r1 = r_header r) by (subst r1; cbn; auto).
      destruct T1 as (T1 & T2 & T3).
      replace (r_spos r mod 65536 + (24 - r_spos r mod 65536)) with 24 in B' by lia.
      rewrite !ztake_all in B' by (rewrite ?zlen_BlockHeader, ?(i_bl _ _ I'); lia).
      destruct (bh_ok (down (r_spos r)) ltac:(lia) ltac:(lia)) as (K1 & K2 & K3 & K4).
      cbn [negb]. rewrite B', K4, Z.eqb_refl. cbn [negb].
      rewrite B', K2, K3. rewrite (i_pos _ _ I').
      assert (U : u64 (RoundDownToBlockBoundary (r_spos r) - cb) = down (r_spos r) - cb).
      { pose proof ce_facts as (_ & _ & L & _). unfold RoundDownToBlockBoundary. blk. apply u64_small. unfold down in *. lia. }
      rewrite U, Z.eqb_refl. cbn [negb]. exists r1. rewrite B'. rewrite T1. auto 10.
    - intros HL. destruct (Z.leb_spec (r_spos r + (24 - r_spos r mod 65536)) (zlen content)); [lia|].
      rewrite Z.max_r by lia. rewrite spos_zlen by lia.
      destruct (block_piece content r (zlen content - r_spos r)) as [I' B']; try assumption; try lia.
      assert (E : set_spos (zlen content) (set_block (blit (r_spos r mod 65536) (zslice (r_spos r) (zlen content - r_spos r) content) (r_block r)) r)
                = upd_block content r (zlen content - r_spos r)) by (unfold upd_block; f_equal; lia).
      rewrite E. destruct (FailReading_end content (upd_block content r (zlen content - r_spos r))) as (r' & F & G).
      + exact I'.
      + cbn. exact T.
      + cbn. lia.
      + cbn [negb]. rewrite F. cbn [negb]. eauto.
  Qed.

  (** Payload bytes. *)
  Lemma payload_piece content p n : agree content -> cb <= p -> 24 <= p mod 65536 -> 0 <= n ->
    p mod 65536 + n <= 65536 -> p + n <= ce -> p + n <= zlen content -> off p + n <= zlen pl ->
    zslice p n content = zslice (off p) n pl /\ off (p + n) = off p + n /\
    (0 < n -> p + n <= ce -> (cb <= down (p + n) -> down (p + n) = down p \/ p + n - down (p + n) <= 0)).
  Proof.
    intros A H1 H2 Hn H3 H4 H5 H6.
    rewrite A by lia. rewrite cbyte_payload by lia. rewrite map_nthZ by (try (apply off_nonneg; lia); fold (off p); lia).
    split; [reflexivity|]. split; [unfold off; rewrite payload_run by lia; lia|].
    intros Hn0 _ _. unfold down. clear - H2 H3 Hn0 H1 cb0. 
    pose proof (Z.mod_pos_bound p 65536 ltac:(lia)). dml.
  Qed.

  Lemma blk_after content r n : inv content r -> 24 <= r_spos r mod 65536 -> 0 <= n ->
    r_spos r mod 65536 + n <= 65536 -> r_spos r <= dend -> cb <= down (r_spos r + n) ->
    ztake (r_spos r + n - down (r_spos r + n)) (r_block r)
    = ztake (r_spos r + n - down (r_spos r + n)) (bh (down (r_spos r + n))).
  Proof.
    intros I Hm Hn H3 HDE HK. 
    destruct (Z.eq_dec (r_spos r mod 65536 + n) 65536) as [E|E].
    - assert (DE : down (r_spos r + n) = r_spos r + n) by (unfold down; clear - E; dml).
      rewrite DE, Z.sub_diag. rewrite !ztake_nonpos by lia. reflexivity.
    - assert (DE : down (r_spos r + n) = down (r_spos r)) by (unfold down; clear - E Hn H3 Hm; dml).
      rewrite DE in *.
      assert (G : 24 <= r_spos r - down (r_spos r)) by (unfold down; lia).
      pose proof (i_blk _ _ I HDE HK) as B. pose proof (i_bl _ _ I) as BL.
      rewrite !ztake_all in B |- * by (rewrite ?zlen_BlockHeader, ?BL; lia). exact B.
  Qed.

  Lemma lt_hend p : cb <= p -> off p < 40 -> p < hend.
  Proof.
    intros H1 H2. destruct hend_facts as (A & B & C). destruct (Z_lt_ge_dec p hend); [assumption|].
    pose proof (off_mono hend p). lia.
  Qed.
  Lemma off_eq_end p q : cb <= p -> cb <= q -> chunk_boundary p -> chunk_boundary q -> off p = off q -> p = q.
  Proof. intros. apply boundary_eq; try assumption; try lia. unfold off in *. lia. Qed.

  Definition upd_header content (r : reader) n :=
    set_spos (r_spos r + n) (set_header (blit (off (r_spos r)) (zslice (r_spos r) n content) (r_header r)) r).

  Lemma cpl_header n k : 0 <= n -> 0 <= k -> n + k <= 40 -> zslice n k pl = zslice n k (c_header c).
  Proof.
    intros. unfold zslice, cpayload. destruct cwf as (W & _). rewrite zdrop_app_l by lia. rewrite ztake_app_l; [reflexivity|]. rewrite zlen_zdrop. lia.
  Qed.

  Lemma header_piece content r n : agree content -> inv content r -> 24 <= r_spos r mod 65536 -> 0 <= n ->
    r_spos r mod 65536 + n <= 65536 -> off (r_spos r) + n <= 40 -> r_spos r + n <= zlen content ->
    inv content (upd_header content r n) /\ off (r_spos r + n) = off (r_spos r) + n /\ r_spos r + n <= ce.
  Proof.
    intros A I Hm Hn H3 H40 HL. pose proof ce_facts as (_ & E1 & E2 & E3 & E4 & _).
    pose proof (zlen_nonneg (c_data c)) as Z0. pose proof cwf as (W & _).
    pose proof (off_nonneg (r_spos r) (i_lo _ _ I)) as O0.
    assert (OE : off (r_spos r + n) = off (r_spos r) + n) by (unfold off; rewrite payload_run by (pose proof (i_lo _ _ I); lia); lia).
    assert (LE : r_spos r + n <= ce).
    { pose proof (i_hi _ _ I). pose proof (i_lo _ _ I). destruct (Z.eq_dec n 0); [lia|].
      apply boundary_le; try lia; [apply boundary_run; lia|]. unfold off in *. lia. }
    split; [|split; assumption].
    destruct (payload_piece content (r_spos r) n) as (S & _ & _); try assumption; try lia; [apply (i_lo _ _ I)|].
    unfold upd_header. rewrite S, cpl_header by lia.
    pose proof I as I0. destruct I.
    destruct (blit_prefix (off (r_spos r)) n (r_header r) (c_header c)) as [BL BT]; try assumption; try lia.
    constructor; cbn [r_spos r_pos r_header r_data r_block r_open r_failed r_trunc r_rec r_recpos set_spos set_header]; try assumption; try lia.
    - rewrite OE. exact BT.
    - rewrite OE. rewrite i_data0. rewrite !ztake_nonpos by lia. reflexivity.
    - intros HD0 HK. apply (blk_after content r n I0); try assumption. lia.
  Qed.

  Lemma header_full content r : inv content r -> 40 <= off (r_spos r) -> r_header r = c_header c.
  Proof.
    intros I H. pose proof (i_hdr _ _ I) as E. pose proof (i_hl _ _ I). destruct cwf as (W & _).
    rewrite !ztake_all in E by lia. exact E.
  Qed.

  Lemma CheckChunkHeader_ok content r : inv content r -> r_spos r = hend -> CheckChunkHeader hash r = (true, r).
  Proof.
    intros I E. destruct hend_facts as (H1 & H2 & H3). pose proof ce_facts as (C1 & C2 & C3 & C4 & C5 & _).
    unfold CheckChunkHeader. rewrite (header_full content r I) by (rewrite E; lia).
    rewrite (i_pos _ _ I). destruct chash as [X1 X2]. rewrite X1, Z.eqb_refl. cbn [negb].
    rewrite C1.
    assert (B : (RemainingInBlock cb <? ChunkHeaderSize) &&
            negb (bh_next_chunk (r_block r) =? u64 (ce - u64 (cb + RemainingInBlock cb))) = false).
    { destruct (Z.ltb_spec (RemainingInBlock cb) ChunkHeaderSize) as [Hlt|]; [|reflexivity].
      rewrite RemainingInBlock_eq in *. unfold ChunkHeaderSize in Hlt.
      remember (cb + (- cb) mod 65536) as K.
      assert (K0 : K mod 65536 = 0) by (subst K; clear; dml).
      pose proof (Z.mod_pos_bound (- cb) 65536 ltac:(lia)) as RB.
      assert (KO : off K = (- cb) mod 65536).
      { unfold off. subst K. clear - cb0 cbb. unfold chunk_boundary, pos_payload in *. dml. }
      assert (KH : K < hend) by (apply lt_hend; lia).
      assert (KH24 : K + 24 < hend).
      { clear - H2 KH K0. unfold chunk_boundary in H2. dml. }
      assert (KD : down hend = K).
      { assert (hend < K + 65536).
        { destruct (Z_lt_ge_dec hend (K + 65536)); [assumption|]. pose proof (off_mono (K + 65536) hend ltac:(lia)).
          assert (off (K + 65536) = off K + 65512) by (unfold off, pos_payload; clear - K0; dml). lia. }
        unfold down. clear - K0 KH24 H. dml. }
      pose proof (i_blk _ _ I) as B. rewrite E, KD in B. destruct dend_facts as (_ & _ & DE). specialize (B ltac:(lia) ltac:(lia)).
      rewrite !ztake_all in B by (rewrite ?zlen_BlockHeader, ?(i_bl _ _ I); lia).
      destruct (bh_ok K ltac:(lia) ltac:(lia)) as (B1 & B2 & B3 & B4).
      rewrite B, B3. rewrite (u64_small K) by lia. rewrite u64_small by lia. rewrite Z.eqb_refl. reflexivity. }
    rewrite B.
    destruct (Z.eqb_spec cb 0) as [E0|]; [|reflexivity].
    destruct (csig E0) as (S1 & S2 & S3 & S4). destruct cwf as (W1 & W2 & W3).
    rewrite W3, S1, S2, S3, S4. reflexivity.
  Qed.

  Lemma ReadChunkHeader_loop_spec content : agree content -> forall fuel r, inv content r -> r_trunc r = false ->
    off (r_spos r) < 40 -> 41 - off (r_spos r) <= Z.of_nat fuel ->
    (hend <= zlen content -> exists r', ReadChunkHeader_loop hash fuel content r = Some (true, r') /\
        inv content r' /\ r_trunc r' = false /\ r_spos r' = hend) /\
    (zlen content < hend -> exists r', ReadChunkHeader_loop hash fuel content r = Some (false, r') /\ stuck_at_end content r').
  Proof.
    intros A. induction fuel as [|fuel IH]; intros r I T O F; [pose proof (off_nonneg (r_spos r) (i_lo _ _ I)); lia|].
    destruct hend_facts as (HE1 & HE2 & HE3). pose proof ce_facts as (C1 & C2 & C3 & C4 & C5 & _).
    destruct dend_facts as (DE1 & DE2 & DE3).
    cbn [ReadChunkHeader_loop].
    pose proof (i_lo _ _ I) as Lo. pose proof (lt_hend (r_spos r) Lo O) as Hlt.
    (* block header part *)
    assert (BHP : forall (P : option (bool * reader) -> Prop) k,
       (zlen content < hend -> forall r', stuck_at_end content r' -> P (Some (false, r'))) ->
       (forall r1, inv content r1 -> r_trunc r1 = false -> off (r_spos r1) = off (r_spos r) -> 24 <= r_spos r1 mod 65536 ->
          P (k r1)) ->
       P (let '(ok, r) := if 0 <? RemainingInBlockHeader (r_spos r) then ReadInnerBlockHeader hash content r else (true, r) in
          if negb ok then Some (false, r) else k r)).
    { intros P k Pf Pk. destruct (Z_lt_ge_dec (r_spos r mod 65536) 24) as [Hm|Hm].
      - destruct (in_header_facts (r_spos r) ltac:(lia) Hm) as (D1 & D2 & D3 & D4 & D5).
        rewrite RemHeader by assumption. destruct (Z.ltb_spec 0 (24 - r_spos r mod 65536)); [|lia].
        destruct (ReadInnerBlockHeader_spec content r A I T ltac:(lia) Hm) as [S1 S2].
        destruct (Z_le_gt_dec (down (r_spos r) + 24) (zlen content)) as [Le|Gt].
        + destruct (S1 Le) as (r' & -> & I' & T' & E' & _). cbn [negb]. apply Pk; try assumption.
          * rewrite E'. exact D5.
          * rewrite E'. clear - D2. dml.
        + destruct (S2 ltac:(lia)) as (r' & -> & G). cbn [negb]. apply Pf; [|exact G].
          assert (down (r_spos r) + 24 <= hend); [|lia].
          destruct (Z_le_gt_dec (down (r_spos r) + 24) hend); [assumption|].
          clear - HE2 Hlt g D2 D4. unfold chunk_boundary in HE2. dml.
      - rewrite RemHeader0 by lia. cbn [Z.ltb Z.compare negb]. apply Pk; try assumption; try lia. }
    assert (K2 : forall r1, inv content r1 -> r_trunc r1 = false -> off (r_spos r1) = off (r_spos r) -> 24 <= r_spos r1 mod 65536 ->
      let k := (let chunk_header_read := DistanceWithoutOverhead (r_pos r1) (r_spos r1) in
          let remaining_length := u64 (ChunkHeaderSize - chunk_header_read) in
          let length_to_read := Z.min remaining_length (RemainingInBlock (r_spos r1)) in
          let '(okr, got, spos') := src_read content (r_spos r1) length_to_read in
          let r := set_spos spos' (set_header (blit chunk_header_read got (r_header r1)) r1) in
          if negb okr then Some (FailReading r)
          else if length_to_read <? remaining_length then ReadChunkHeader_loop hash fuel content r
          else Some (CheckChunkHeader hash r)) in
      (hend <= zlen content -> exists r', k = Some (true, r') /\
        inv content r' /\ r_trunc r' = false /\ r_spos r' = hend) /\
      (zlen content < hend -> exists r', k = Some (false, r') /\ stuck_at_end content r')).
    { intros r1 I1 T1 O1 M1. cbv zeta.
      pose proof (i_lo _ _ I1) as Lo1. pose proof (i_len _ _ I1) as Len1. pose proof (i_hi _ _ I1) as Hi1.
      pose proof (off_nonneg (r_spos r1) Lo1) as O0.
      rewrite (i_pos _ _ I1). rewrite DistanceWithoutOverhead_eq by lia. fold (off (r_spos r1)).
      rewrite u64_small by (blk; lia). rewrite RemainingInBlock_eq.
      pose proof (Z.mod_pos_bound (r_spos r1) 65536 ltac:(lia)) as MB.
      assert (R : (- r_spos r1) mod 65536 = 65536 - r_spos r1 mod 65536) by (clear - M1; dml).
      rewrite R. unfold ChunkHeaderSize.
      remember (Z.min (40 - off (r_spos r1)) (65536 - r_spos r1 mod 65536)) as n.
      assert (N : 0 < n /\ off (r_spos r1) + n <= 40 /\ r_spos r1 mod 65536 + n <= 65536) by lia.
      unfold src_read. destruct (Z.leb_spec (r_spos r1 + n) (zlen content)) as [HL|HL].
      - destruct (header_piece content r1 n) as (I2 & O2 & L2); try assumption; try lia.
        fold (upd_header content r1 n). remember (upd_header content r1 n) as r2.
        assert (S2 : r_spos r2 = r_spos r1 + n) by (subst r2; reflexivity).
        assert (T2 : r_trunc r2 = false) by (subst r2; exact T1).
        cbn [negb]. destruct (Z.ltb_spec n (40 - off (r_spos r1))) as [Hr|Hr].
        + apply IH; try assumption; rewrite S2; lia.
        + assert (EH : r_spos r2 = hend).
          { rewrite S2. apply off_eq_end; try lia; [apply boundary_run; lia|assumption]. }
          split; [|lia]. intros _. rewrite (CheckChunkHeader_ok content r2 I2 EH). exists r2. auto.
      - rewrite Z.max_r by lia. rewrite spos_zlen by lia.
        destruct (header_piece content r1 (zlen content - r_spos r1)) as (I2 & O2 & L2); try assumption; try lia.
        assert (E : set_spos (zlen content) (set_header (blit (off (r_spos r1)) (zslice (r_spos r1) (zlen content - r_spos r1) content) (r_header r1)) r1)
                = upd_header content r1 (zlen content - r_spos r1)) by (unfold upd_header; f_equal; lia).
        rewrite E. cbn [negb].
        destruct (FailReading_end content (upd_header content r1 (zlen content - r_spos r1)) I2) as (r' & -> & G); [exact T1|cbn; lia|].
        split; [|intros _; exists r'; auto]. intros HH. exfalso.
        assert (off (r_spos r1 + n) = off (r_spos r1) + n) by (unfold off; rewrite payload_run by lia; lia).
        assert (r_spos r1 + n <= hend); [|lia].
        apply boundary_le; try lia; [apply boundary_run; lia|]. unfold off in *. lia. }
    split.
    - intros HH. apply (BHP (fun x => exists r', x = Some (true, r') /\ inv content r' /\ r_trunc r' = false /\ r_spos r' = hend)); [lia|].
      intros r1 I1 T1 O1 M1. destruct (K2 r1 I1 T1 O1 M1) as [Y _]. exact (Y HH).
    - intros HH. apply (BHP (fun x => exists r', x = Some (false, r') /\ stuck_at_end content r')); [eauto|].
      intros r1 I1 T1 O1 M1. destruct (K2 r1 I1 T1 O1 M1) as [_ Y]. exact (Y HH).
  Qed.

  Lemma inv_set_trunc content r b : inv content r -> inv content (set_trunc b r).
  Proof. intros []. constructor; cbn; assumption. Qed.

  (** PullChunkHeader. *)
  Lemma PullChunkHeader_spec content r : agree content -> inv content r ->
    (hend <= zlen content -> exists r', PullChunkHeader hash content r = Some (true, r') /\
        inv content r' /\ r_trunc r' = false /\ r_spos r' = Z.max hend (r_spos r) /\ 40 <= off (r_spos r')) /\
    (zlen content < hend -> exists r', PullChunkHeader hash content r = Some (false, r') /\ stuck_at_end content r').
  Proof.
    intros A I. destruct hend_facts as (HE1 & HE2 & HE3). pose proof ce_facts as (C1 & C2 & C3 & C4 & C5 & _).
    destruct dend_facts as (DE1 & DE2 & DE3).
    unfold PullChunkHeader, r_ok. rewrite (i_open _ _ I), (i_failed _ _ I). cbn [andb negb].
    pose proof (i_lo _ _ I) as Lo. pose proof (i_len _ _ I) as Len. pose proof (i_hi _ _ I) as Hi.
    cbn [set_trunc r_spos r_pos]. rewrite (i_pos _ _ I).
    destruct (Z.ltb_spec (r_spos r) cb); [lia|].
    rewrite DistanceWithoutOverhead_eq by lia. fold (off (r_spos r)). unfold ChunkHeaderSize.
    destruct (Z.ltb_spec (off (r_spos r)) 40) as [O|O].
    - pose proof (lt_hend (r_spos r) Lo O).
      destruct (ReadChunkHeader_loop_spec content A 42 (set_trunc false r) (inv_set_trunc _ _ _ I) eq_refl) as [Y1 Y2]; cbn [set_trunc r_spos] in *; try lia.
      { pose proof (off_nonneg (r_spos r) Lo). lia. }
      split; [|exact Y2]. intros HH. destruct (Y1 HH) as (r' & Q1 & Q2 & Q3 & Q4). exists r'. unfold ReadChunkHeader.
      split; [exact Q1|]. split; [assumption|]. split; [assumption|]. rewrite Q4. lia.
    - assert (HS : hend <= r_spos r).
      { apply boundary_le; try lia; try assumption. unfold off in *; lia. }
      split; [|lia]. intros _. exists (set_trunc false r). split; [reflexivity|].
      split; [apply inv_set_trunc; assumption|]. cbn [set_trunc r_trunc r_spos]. split; [reflexivity|]. lia.
  Qed.

  Definition upd_data content (r : reader) n :=
    set_spos (r_spos r + n) (set_data (r_data r ++ zslice (r_spos r) n content) r).

  Lemma data_piece content r n : agree content -> inv content r -> 24 <= r_spos r mod 65536 -> 0 <= n ->
    40 <= off (r_spos r) ->
    r_spos r mod 65536 + n <= 65536 -> off (r_spos r) + n <= 40 + zlen (c_data c) -> r_spos r + n <= zlen content ->
    inv content (upd_data content r n) /\ off (r_spos r + n) = off (r_spos r) + n /\ r_spos r + n <= ce.
  Proof.
    intros A I Hm Hn H40 H3 HD HL. pose proof ce_facts as (_ & E1 & E2 & E3 & E4 & _).
    pose proof (zlen_nonneg (c_data c)) as Z0. pose proof cwf as (W & _).
    assert (OE : off (r_spos r + n) = off (r_spos r) + n) by (unfold off; rewrite payload_run by (pose proof (i_lo _ _ I); lia); lia).
    assert (LE : r_spos r + n <= ce).
    { pose proof (i_hi _ _ I). pose proof (i_lo _ _ I). destruct (Z.eq_dec n 0); [lia|].
      apply boundary_le; try lia; [apply boundary_run; lia|]. unfold off in *. lia. }
    split; [|split; assumption].
    destruct (payload_piece content (r_spos r) n) as (S & _ & _); try assumption; try lia; [apply (i_lo _ _ I)|].
    unfold upd_data. rewrite S.
    pose proof I as I0. destruct I.
    constructor; cbn [r_spos r_pos r_header r_data r_block r_open r_failed r_trunc r_rec r_recpos set_spos set_data]; try assumption; try lia.
    - rewrite OE. rewrite !ztake_all in i_hdr0 |- * by lia. exact i_hdr0.
    - rewrite OE, i_data0. unfold zslice, cpayload. rewrite zdrop_app_r by lia. rewrite W.
      replace (off (r_spos r) + n - 40) with ((off (r_spos r) - 40) + n) by lia.
      rewrite ztake_split by lia. reflexivity.
    - intros HD0 HK. apply (blk_after content r n I0); try assumption. lia.
  Qed.

  Lemma ReadData_loop_spec content : agree content -> forall fuel r, inv content r -> r_trunc r = false ->
    40 <= off (r_spos r) -> zlen content - r_spos r < Z.of_nat fuel ->
    (dend <= zlen content -> exists r', ReadData_loop hash fuel content ce r = Some (true, r') /\
        inv content r' /\ r_trunc r' = false /\ dend <= r_spos r') /\
    (zlen content < dend -> exists r', ReadData_loop hash fuel content ce r = Some (false, r') /\ stuck_at_end content r').
  Proof.
    intros A. induction fuel as [|fuel IH]; intros r I T O F; [pose proof (i_len _ _ I); lia|].
    destruct hend_facts as (HE1 & HE2 & HE3). pose proof ce_facts as (C1 & C2 & C3 & C4 & C5 & _).
    destruct dend_facts as (DE1 & DE2 & DE3). pose proof cwf as (W1 & W2 & W3).
    pose proof (zlen_nonneg (c_data c)) as Z0.
    cbn [ReadData_loop]. rewrite (header_full content r I O), W3.
    assert (ZD0 : zlen (r_data r) = Z.max 0 (Z.min (off (r_spos r) - 40) (zlen (c_data c)))) by (rewrite (i_data _ _ I); apply zlen_ztake).
    rewrite ZD0.
    pose proof (i_lo _ _ I) as Lo. pose proof (i_len _ _ I) as Len. pose proof (i_hi _ _ I) as Hi.
    destruct (Z.ltb_spec (Z.max 0 (Z.min (off (r_spos r) - 40) (zlen (c_data c)))) (zlen (c_data c))) as [Hd|Hd].
    2:{ assert (dend <= r_spos r).
        { apply boundary_le; try lia; try assumption. unfold off in *; lia. }
        split; [|lia]. intros _. exists r. auto. }
    assert (Hlt : r_spos r < dend).
    { destruct (Z_lt_ge_dec (r_spos r) dend); [assumption|]. pose proof (off_mono dend (r_spos r)). lia. }
    assert (BHP : forall (P : option (bool * reader) -> Prop) k,
       (zlen content < dend -> forall r', stuck_at_end content r' -> P (Some (false, r'))) ->
       (forall r1, inv content r1 -> r_trunc r1 = false -> off (r_spos r1) = off (r_spos r) -> 24 <= r_spos r1 mod 65536 ->
          r_spos r <= r_spos r1 -> r_data r1 = r_data r -> P (k r1)) ->
       P (let '(ok, r) := if 0 <? RemainingInBlockHeader (r_spos r) then 
              let '(ok, r0) := ReadInnerBlockHeader hash content r in
              if negb ok then (false, r0)
              else if negb (bh_next_chunk (r_block r0) =? u64 (ce - RoundDownToBlockBoundary (r_spos r))) then
                fail_rec kFindChunk (r_spos r0) r0
              else (true, r0)
            else (true, r) in
          if negb ok then Some (false, r) else k r)).
    { intros P k Pf Pk. destruct (Z_lt_ge_dec (r_spos r mod 65536) 24) as [Hm|Hm].
      - destruct (in_header_facts (r_spos r) ltac:(lia) Hm) as (D1 & D2 & D3 & D4 & D5).
        rewrite RemHeader by assumption. destruct (Z.ltb_spec 0 (24 - r_spos r mod 65536)); [|lia].
        destruct (ReadInnerBlockHeader_spec content r A I T ltac:(lia) Hm) as [S1 S2].
        destruct (Z_le_gt_dec (down (r_spos r) + 24) (zlen content)) as [Le|Gt].
        + destruct (S1 Le) as (r' & -> & I' & T' & E' & NC & DA & HH). cbn [negb]. rewrite NC.
          replace (u64 (ce - RoundDownToBlockBoundary (r_spos r))) with (ce - down (r_spos r)).
          2:{ unfold RoundDownToBlockBoundary. blk. rewrite u64_small; unfold down in *; lia. }
          rewrite Z.eqb_refl. cbn [negb]. apply Pk; try assumption; [rewrite E'; exact D5| |rewrite E'; lia].
          rewrite E'. clear - D2. dml.
        + destruct (S2 ltac:(lia)) as (r' & -> & G). cbn [negb]. apply Pf; [|exact G].
          assert (down (r_spos r) + 24 <= dend); [|lia].
          destruct (Z_le_gt_dec (down (r_spos r) + 24) dend); [assumption|].
          clear - DE2 Hlt g D2 D4. unfold chunk_boundary in DE2. dml.
      - rewrite RemHeader0 by lia. cbn [Z.ltb Z.compare negb]. apply Pk; try assumption; try lia. reflexivity. }
    assert (K2 : forall r1, inv content r1 -> r_trunc r1 = false -> off (r_spos r1) = off (r_spos r) -> 24 <= r_spos r1 mod 65536 ->
      r_spos r <= r_spos r1 -> r_data r1 = r_data r ->
      let k := (let length := Z.min (zlen (c_data c) - zlen (r_data r1)) (RemainingInBlock (r_spos r1)) in
            let '(okr, got, spos') := src_read content (r_spos r1) length in
            let r := set_spos spos' (set_data (r_data r1 ++ got) r1) in
            if negb okr then Some (FailReading r) else ReadData_loop hash fuel content ce r) in
      (dend <= zlen content -> exists r', k = Some (true, r') /\
        inv content r' /\ r_trunc r' = false /\ dend <= r_spos r') /\
      (zlen content < dend -> exists r', k = Some (false, r') /\ stuck_at_end content r')).
    { intros r1 I1 T1 O1 M1 S1 DA1. cbv zeta.
      pose proof (i_lo _ _ I1) as Lo1. pose proof (i_len _ _ I1) as Len1. pose proof (i_hi _ _ I1) as Hi1.
      assert (ZD : zlen (r_data r1) = off (r_spos r1) - 40) by (rewrite (i_data _ _ I1), zlen_ztake; lia).
      rewrite ZD. rewrite RemainingInBlock_eq.
      pose proof (Z.mod_pos_bound (r_spos r1) 65536 ltac:(lia)) as MB.
      assert (R : (- r_spos r1) mod 65536 = 65536 - r_spos r1 mod 65536) by (clear - M1; dml).
      rewrite R.
      remember (Z.min (zlen (c_data c) - (off (r_spos r1) - 40)) (65536 - r_spos r1 mod 65536)) as n.
      assert (N : 0 < n /\ off (r_spos r1) + n <= 40 + zlen (c_data c) /\ r_spos r1 mod 65536 + n <= 65536) by lia.
      unfold src_read. destruct (Z.leb_spec (r_spos r1 + n) (zlen content)) as [HL|HL].
      - destruct (data_piece content r1 n) as (I2 & O2 & L2); try assumption; try lia.
        fold (upd_data content r1 n). remember (upd_data content r1 n) as r2.
        assert (S2 : r_spos r2 = r_spos r1 + n) by (subst r2; reflexivity).
        assert (T2 : r_trunc r2 = false) by (subst r2; exact T1).
        cbn [negb]. apply IH; try assumption; rewrite S2; lia.
      - rewrite Z.max_r by lia. rewrite spos_zlen by lia.
        destruct (data_piece content r1 (zlen content - r_spos r1)) as (I2 & O2 & L2); try assumption; try lia.
        assert (E : set_spos (zlen content) (set_data (r_data r1 ++ zslice (r_spos r1) (zlen content - r_spos r1) content) r1)
                = upd_data content r1 (zlen content - r_spos r1)) by (unfold upd_data; f_equal; lia).
        rewrite E. cbn [negb].
        destruct (FailReading_end content (upd_data content r1 (zlen content - r_spos r1)) I2) as (r' & -> & G); [exact T1|cbn; lia|].
        split; [|intros _; exists r'; auto]. intros HH. exfalso.
        assert (off (r_spos r1 + n) = off (r_spos r1) + n) by (unfold off; rewrite payload_run by lia; lia).
        assert (r_spos r1 + n <= dend); [|lia].
        apply boundary_le; try lia; [apply boundary_run; lia|]. unfold off in *. lia. }
    split.
    - intros HH. apply (BHP (fun x => exists r', x = Some (true, r') /\ inv content r' /\ r_trunc r' = false /\ dend <= r_spos r')); [lia|].
      intros r1 I1 T1 O1 M1 S1 DA1. destruct (K2 r1 I1 T1 O1 M1 S1 DA1) as [Y _]. exact (Y HH).
    - intros HH. apply (BHP (fun x => exists r', x = Some (false, r') /\ stuck_at_end content r')); [eauto|].
      intros r1 I1 T1 O1 M1 S1 DA1. destruct (K2 r1 I1 T1 O1 M1 S1 DA1) as [_ Y]. exact (Y HH).
  Qed.

  Lemma fresh_inv content r : fresh r cb -> cb <= zlen content -> inv content r.
  Proof.
    intros [] H. pose proof ce_facts as (_ & _ & L & _).
    assert (O : off cb = 0) by (unfold off; lia).
    constructor; rewrite ?f_spos0; try assumption; try lia.
    - rewrite O, !ztake_nonpos by lia. reflexivity.
    - rewrite O, ztake_nonpos by lia. assumption.
    - intros _ HK. assert (down cb = cb) by (unfold down in *; pose proof (Z.mod_pos_bound cb 65536 ltac:(lia)); lia).
      rewrite H0, Z.sub_diag, !ztake_nonpos by lia. reflexivity.
  Qed.

  (** The central step: one call of ReadChunk on a content which agrees with the chunk as far as it goes. *)
  Theorem ReadChunk_step content r : agree content -> inv content r ->
    (ce <= zlen content ->
       exists r', ReadChunk hash content r = Some (Some c, r') /\ fresh r' ce /\ r_trunc r' = false) /\
    (zlen content < ce ->
       exists r', ReadChunk hash content r = Some (None, r') /\ stuck_at_end content r').
  Proof.
    intros A I. destruct hend_facts as (HE1 & HE2 & HE3). pose proof ce_facts as (C1 & C2 & C3 & C4 & C5 & _).
    destruct dend_facts as (DE1 & DE2 & DE3). pose proof cwf as (W1 & W2 & W3).
    unfold ReadChunk.
    destruct (PullChunkHeader_spec content r A I) as [P1 P2].
    destruct (Z_le_gt_dec hend (zlen content)) as [HH|HH].
    2:{ destruct (P2 ltac:(lia)) as (r' & -> & G). split; [lia|]. eauto. }
    destruct (P1 HH) as (r1 & -> & I1 & T1 & S1 & O1). clear P1 P2.
    rewrite (header_full content r1 I1 O1), (i_pos _ _ I1), C1.
    pose proof (i_lo _ _ I1) as Lo1.
    destruct (ReadData_loop_spec content A (S (length content)) r1 I1 T1 O1) as [D1 D2]; [unfold zlen; lia|].
    destruct (Z_le_gt_dec dend (zlen content)) as [HD|HD].
    2:{ destruct (D2 ltac:(lia)) as (r' & -> & G). split; [lia|]. eauto. }
    destruct (D1 HD) as (r2 & -> & I2 & T2 & S2). clear D1 D2.
    assert (O2 : off dend <= off (r_spos r2)) by (apply off_mono; lia).
    pose proof (zlen_nonneg (c_data c)) as Z0.
    assert (DA : r_data r2 = c_data c) by (rewrite (i_data _ _ I2); apply ztake_all; lia).
    unfold src_seek. destruct (Z.leb_spec ce (zlen content)) as [HC|HC].
    - cbn [negb set_spos r_data r_header]. rewrite DA, (header_full content r2 I2) by lia.
      destruct chash as [_ X2]. rewrite X2, Z.eqb_refl. cbn [negb].
      replace (MkChunk (c_header c) (c_data c)) with c by (destruct c; reflexivity).
      split; [|lia]. intros _. eexists. split; [reflexivity|]. split; [|cbn; exact T2].
      destruct I2. constructor; cbn; try assumption; reflexivity.
    - cbn [negb]. split; [lia|]. intros _.
      assert (I3 : inv content (set_spos (zlen content) r2)).
      { pose proof (i_hi _ _ I2). pose proof (i_len _ _ I2) as Le2. destruct I2.
        assert (OO : off dend <= off (zlen content)) by (apply off_mono; lia).
        constructor; cbn [r_spos r_pos r_header r_data r_block r_open r_failed r_trunc r_rec r_recpos set_spos]; try assumption; try lia.
        - rewrite !ztake_all in i_hdr0 |- * by lia. exact i_hdr0.
        - rewrite DA. symmetry. apply ztake_all. lia.
        - intros HK1 HK2. assert (zlen content = r_spos r2) as -> by lia. apply i_blk0; [lia|].
          assert (zlen content = r_spos r2) by lia. rewrite <- H0. exact HK2. }
      destruct (FailReading_end content _ I3) as (r' & -> & G); [exact T2|reflexivity|].
      exists r'. auto.
  Qed.
  End OneChunk.
End Reader.
