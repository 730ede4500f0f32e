(** Files: the writer produces the layout, the layout determines the bytes. *)
From Coq Require Import Sorted.
From Verif Require Import Base.Bytes Model.Endian Model.Block Model.Chunk Model.ChunkWriter Model.ChunkReader
  Spec.BlockSpec Spec.FileSpec Spec.ChunkLink Proof.EndianProof Proof.BlockProof Proof.ChunkWriterProof Proof.ChunkReaderProof.

Lemma le64_eq v : le64 v = WriteLittleEndian 8 v.
Proof.
  rewrite WriteLittleEndian_le_bytes. unfold le64. cbn [seq map le_bytes].
  change (256 ^ Z.of_nat 0) with 1. rewrite Z.div_1_r. rewrite !Z.div_div by lia. reflexivity.
Qed.

Section File.
  Variable hash : list Z -> Z.
  Hypothesis hash_range : forall l, 0 <= hash l < 2 ^ 64.

  Lemma BlockHeader_bytes a b : BlockHeader hash a b = block_header_bytes hash a b.
  Proof. unfold BlockHeader, block_header_bytes. rewrite !le64_eq. reflexivity. Qed.

  Lemma ChunkHeader_bytes k : chunk_ok k ->
    ChunkHeader hash (k_data k) (k_type k) (k_nrec k) (k_dsize k) = chunk_header_bytes hash k.
  Proof.
    intros (H1 & H2 & H3 & H4). unfold ChunkHeader, chunk_header_bytes.
    pose proof (zlen_nonneg (k_data k)).
    rewrite (u64_small (zlen _)) by lia.
    rewrite (u64_small (Z.shiftl _ _)).
    2:{ rewrite Z.shiftl_mul_pow2 by lia. change (2 ^ 8) with 256. change (2 ^ 64) with (2 ^ 56 * 256). nia. }
    rewrite lor_shl8 by lia. rewrite !le64_eq. reflexivity.
  Qed.

  Lemma mk_chunk_wf k : chunk_ok k -> wf_size (mk_chunk hash k) /\ wf_hash hash (mk_chunk hash k) /\
    ch_num_records (c_header (mk_chunk hash k)) = k_nrec k /\ ch_chunk_type (c_header (mk_chunk hash k)) = k_type k /\
    ch_decoded_data_size (c_header (mk_chunk hash k)) = k_dsize k /\ ch_data_size (c_header (mk_chunk hash k)) = zlen (k_data k).
  Proof.
    intros (H1 & H2 & H3 & H4).
    destruct (ChunkHeader_codec hash hash_range (k_data k) (k_type k) (k_nrec k) (k_dsize k)) as (A1 & A2 & A3 & A4 & A5 & A6 & A7 & A8); try assumption.
    { unfold kMaxNumRecords. lia. }
    unfold wf_size, wf_hash. cbn [c_header c_data mk_chunk]. repeat split; auto.
  Qed.

  Lemma strip_map cb ce pl n : forall p, 0 <= p -> 0 <= n -> 
    strip_headers p (map (cbyte hash cb ce pl) (zseq p n)) =
    map (nthZ pl) (zseq (pos_payload p - pos_payload cb) (pos_payload (p + n) - pos_payload p)).
  Proof.
    intros p Hp Hn. revert p Hp. pattern n. apply natlike_ind; [| |exact Hn].
    - intros p Hp. rewrite Z.add_0_r, Z.sub_diag, !zseq_nonpos by lia. reflexivity.
    - intros m Hm IH p Hp. rewrite (zseq_cons p (Z.succ m)) by lia. cbn [map strip_headers].
      replace (Z.succ m - 1) with m by lia. rewrite IH by lia.
      replace (p + 1 + m) with (p + Z.succ m) by lia.
      pose proof (pos_payload_S p Hp) as PS. pose proof (pos_payload_mono (p + 1) (p + Z.succ m) ltac:(lia)) as PM.
      destruct (in_block_header p) eqn:E.
      + replace (pos_payload (p + 1)) with (pos_payload p) by lia. reflexivity.
      + rewrite (zseq_cons (pos_payload p - pos_payload cb)) by lia. cbn [map]. unfold cbyte at 1. rewrite E. f_equal.
        f_equal. f_equal; lia.
  Qed.

  Lemma strip_nth l : forall p i, 0 <= p -> 0 <= i < zlen l -> in_block_header (p + i) = false ->
    nthZ (strip_headers p l) (pos_payload (p + i) - pos_payload p) = nthZ l i.
  Proof.
    induction l as [|x l IH]; intros p i Hp Hi Hh; [cbn in Hi; lia|].
    rewrite zlen_cons in Hi. cbn [strip_headers]. pose proof (pos_payload_S p Hp) as PS.
    destruct (Z.eq_dec i 0) as [->|Hi0].
    - rewrite Z.add_0_r in *. rewrite Hh, Z.sub_diag, !nthZ_cons. reflexivity.
    - specialize (IH (p + 1) (i - 1) ltac:(lia) ltac:(lia)). replace (p + 1 + (i - 1)) with (p + i) in IH by lia.
      specialize (IH Hh). rewrite (nthZ_cons x l). destruct (Z.leb_spec i 0); [lia|]. rewrite <- IH.
      destruct (in_block_header p).
      + f_equal. lia.
      + rewrite nthZ_cons.
        pose proof (pos_payload_mono (p + 1) (p + i) ltac:(lia)).
        destruct (Z.leb_spec (pos_payload (p + i) - pos_payload p) 0); [lia|]. f_equal. lia.
  Qed.

  Lemma nthZ_pad l n i : 0 <= i -> nthZ (l ++ zeros n) i = nthZ l i.
  Proof.
    intros. destruct (Z_lt_ge_dec i (zlen l)); [apply nthZ_app_l; lia|].
    rewrite nthZ_app_r, nthZ_zeros, nthZ_over by lia. reflexivity.
  Qed.

  Lemma nthZ_zslice l p n i : 0 <= p -> 0 <= i < n -> nthZ (zslice p n l) i = nthZ l (p + i).
  Proof.
    intros. unfold nthZ, zslice, ztake, zdrop.
    assert (G1 : forall (a : list Z) m k, (k < m)%nat -> nth k (firstn m a) 0 = nth k a 0).
    { induction a as [|x a IH]; intros [|m] [|k] Hk; cbn; try lia; try reflexivity. apply IH; lia. }
    assert (G2 : forall (a : list Z) m k, nth k (skipn m a) 0 = nth (m + k) a 0).
    { induction a as [|x a IH]; intros [|m] k; cbn; try reflexivity; [destruct k; reflexivity|apply IH]. }
    rewrite G1, G2 by lia. f_equal. lia.
  Qed.

  Lemma cend_mk k p : chunk_ok k -> cend (mk_chunk hash k) p = chunk_end (zlen (k_data k)) (k_nrec k) p.
  Proof. intros H. destruct (mk_chunk_wf k H) as (_ & _ & E1 & _ & _ & E2). unfold cend. rewrite E1, E2. reflexivity. Qed.
  Lemma cfits_mk k p : chunk_ok k -> cfits (mk_chunk hash k) p <-> fits p (zlen (k_data k)) (k_nrec k).
  Proof. intros H. destruct (mk_chunk_wf k H) as (_ & _ & E1 & _). unfold cfits. rewrite E1. reflexivity. Qed.

  Lemma least_chunk_end_iff p ds nr e : 0 <= p -> chunk_boundary p -> 0 <= ds -> 0 <= nr ->
    least_chunk_end p (40 + ds) nr e <-> e = chunk_end ds nr p.
  Proof.
    intros Hp Hb Hd Hn. destruct (chunk_end_spec ds nr p Hp Hb Hd Hn) as (A & B & C & D & E). split.
    - intros [(L1 & L2 & L3 & L4) L5]. rewrite payload_closed in L4 by lia.
      apply Z.le_antisymm; [|apply E; assumption].
      apply L5; try assumption; try lia. rewrite payload_closed by lia. lia.
    - intros ->. split.
      + repeat split; try assumption; try lia. rewrite payload_closed by lia. lia.
      + intros q Q1 Q2 Q3 Q4. rewrite payload_closed in Q4 by lia. apply E; assumption.
  Qed.

  Lemma fits_of_end p ds nr : 0 <= p -> chunk_boundary p -> 0 <= ds -> 0 <= nr ->
    chunk_end ds nr p + 64 <= 2 ^ 64 -> fits p ds nr.
  Proof.
    intros Hp Hb Hd Hn H. unfold fits, no_overflow. unfold chunk_end in H.
    destruct (round_up_spec (p + nr) ltac:(lia)) as (R1 & _).
    split; [|lia]. unfold add_ov in H.
    pose proof (Z.mod_pos_bound (p + 65511) 65536 ltac:(lia)).
    assert ((40 + ds) / 65512 <= (40 + ds + (p + 65511) mod 65536) / 65512) by (apply Z.div_le_mono; lia).
    lia.
  Qed.

  Lemma header_in_chunk p q : 0 <= p -> chunk_boundary p -> p <= q -> in_block_header q = true ->
    p <= q - q mod 65536 <= q /\ (q - q mod 65536) mod 65536 = 0 /\ 0 <= q mod 65536 < 24.
  Proof.
    unfold in_block_header, chunk_boundary. rewrite Z.ltb_lt. intros. 
    split; [|split]; [clear - H H0 H1 H2; dml|dml|dml].
  Qed.

  Lemma image_layout k p : 0 <= p -> chunk_boundary p -> chunk_ok k -> cfits (mk_chunk hash k) p ->
    chunk_layout hash p (cend (mk_chunk hash k) p) k
      (chunk_image hash p (cend (mk_chunk hash k) p) (cpayload (mk_chunk hash k))).
  Proof.
    intros Hp Hb Hk Hf. destruct (mk_chunk_wf k Hk) as (W1 & W2 & W3 & _).
    destruct (cend_spec (mk_chunk hash k) p Hp Hb W1 Hf) as (_ & B & L & ZL & PP & NR).
    pose proof (cend_mk k p Hk) as CE. remember (cend (mk_chunk hash k) p) as e.
    pose proof (zlen_nonneg (k_data k)) as Z0. destruct Hk as (K1 & K2 & K3 & K4).
    split; [apply zlen_chunk_image; lia|].
    split; [apply least_chunk_end_iff; try assumption; lia|].
    split.
    - exists (pos_payload e - pos_payload p - zlen (cpayload (mk_chunk hash k))).
      unfold chunk_image. rewrite strip_map by lia. replace (p + (e - p)) with e by lia. rewrite Z.sub_diag.
      replace (pos_payload e - pos_payload p) with (zlen (cpayload (mk_chunk hash k)) + (pos_payload e - pos_payload p - zlen (cpayload (mk_chunk hash k)))) at 1 by lia.
      pose proof (zlen_nonneg (cpayload (mk_chunk hash k))).
      rewrite zseq_app, map_app, map_nthZ_all, map_nthZ_zeros by lia.
      unfold cpayload at 1. cbn [c_header c_data mk_chunk]. rewrite ChunkHeader_bytes by (repeat split; tauto || lia).
      rewrite <- app_assoc. reflexivity.
    - intros K HK HK0.
      assert (K24 : K + 24 <= e) by (clear - HK HK0 B; unfold chunk_boundary in B; dml).
      split; [assumption|]. unfold chunk_image. rewrite map_zslice by lia.
      replace (p + (K - p)) with (K + 0) by lia. rewrite cbyte_header by lia.
      unfold zslice. rewrite zdrop_nonpos, ztake_all by (rewrite ?zlen_BlockHeader; lia). apply BlockHeader_bytes.
  Qed.

  Lemma layout_image p e k out : chunk_layout hash p e k out -> 0 <= p -> chunk_boundary p -> chunk_ok k ->
    e + 64 <= 2 ^ 64 ->
    e = cend (mk_chunk hash k) p /\ cfits (mk_chunk hash k) p /\
    out = chunk_image hash p e (cpayload (mk_chunk hash k)).
  Proof.
    intros (L1 & L2 & (pad & L3) & L4) Hp Hb Hk He.
    pose proof Hk as (K1 & K2 & K3 & K4). pose proof (zlen_nonneg (k_data k)) as Z0.
    apply least_chunk_end_iff in L2; try assumption; try lia.
    assert (F : cfits (mk_chunk hash k) p) by (apply cfits_mk; [assumption|]; apply fits_of_end; try assumption; lia).
    assert (CE : e = cend (mk_chunk hash k) p) by (rewrite cend_mk by assumption; exact L2).
    destruct (mk_chunk_wf k Hk) as (W1 & _).
    destruct (cend_spec (mk_chunk hash k) p Hp Hb W1 F) as (_ & B & L & ZL & PP & NR). rewrite <- CE in *.
    split; [reflexivity|]. split; [assumption|].
    rewrite <- (map_nthZ_all out). rewrite L1. unfold chunk_image.
    apply map_zseq_shift. intros i Hi. rewrite Z.add_0_l. unfold cbyte.
    destruct (in_block_header (p + i)) eqn:E.
    - destruct (header_in_chunk p (p + i) Hp Hb ltac:(lia) E) as (H1 & H2 & H3).
      destruct (L4 (p + i - (p + i) mod 65536) ltac:(lia) H2) as (H4 & H5).
      rewrite BlockHeader_bytes, <- H5. rewrite nthZ_zslice by lia. f_equal. lia.
    - rewrite <- (strip_nth out p i) by (assumption || lia). rewrite L3.
      rewrite app_assoc, nthZ_pad by (pose proof (pos_payload_mono p (p + i)); lia).
      unfold cpayload. cbn [c_header c_data mk_chunk]. rewrite ChunkHeader_bytes by assumption. reflexivity.
  Qed.

  (** ** Writing *)
  Lemma fits_room p k : 0 <= p -> chunk_boundary p -> chunk_ok k -> p + room k < 2 ^ 64 ->
    fits p (zlen (k_data k)) (k_nrec k) /\ chunk_end (zlen (k_data k)) (k_nrec k) p <= p + room k.
  Proof.
    intros Hp Hb (K1 & K2 & K3 & K4) H. pose proof (zlen_nonneg (k_data k)). unfold room in *.
    remember (zlen (k_data k)) as n.
    assert (D : (40 + n) / 65512 <= n) by (clear - H0; dml).
    assert (D2 : (40 + n) / 65512 * 24 <= n) by (clear - H0; dml).
    assert (F : fits p n (k_nrec k)) by (unfold fits, no_overflow; lia). split; [assumption|].
    destruct F as [F1 F2]. unfold chunk_end, add_ov.
    destruct (round_up_spec (p + k_nrec k) ltac:(lia)) as (R1 & _).
    pose proof (Z.mod_pos_bound (p + 65511) 65536 ltac:(lia)).
    assert ((40 + n + (p + 65511) mod 65536) / 65512 <= (40 + n) / 65512 + 3); [|lia].
    apply Z.div_le_upper_bound; [lia|]. clear - H1 H0. dml.
  Qed.

  Lemma WriteChunks_layout ks : forall p, 0 <= p -> chunk_boundary p -> Forall chunk_ok ks -> p + rooms ks < 2 ^ 64 ->
    exists qs out e, WriteChunks hash (map (mk_chunk hash) ks) p = Some (out, e) /\
      map q_chunk qs = ks /\ file_layout hash p qs out e /\ e = p + zlen out /\ e <= p + rooms ks /\ chunk_boundary e.
  Proof.
    induction ks as [|k ks IH]; intros p Hp Hb Hk Hr; cbn [map WriteChunks rooms fold_right] in *.
    - exists [], [], p. change (zlen (@nil Z)) with 0. repeat split; try (apply file_nil); try assumption; lia.
    - inversion Hk; subst.
      assert (R0 : forall l, Forall chunk_ok l -> 0 <= rooms l).
      { clear. induction l as [|x l IHl]; intros Hl; cbn; [lia|]. inversion Hl; subst. fold (rooms l). specialize (IHl H2).
        destruct H1 as (A & B & _). pose proof (zlen_nonneg (k_data x)). unfold room. lia. }
      fold (rooms ks) in *. specialize (R0 ks H2).
      destruct (fits_room p k Hp Hb H1 ltac:(lia)) as [F FE].
      pose proof (proj2 (cfits_mk k p H1) F) as CF. destruct (mk_chunk_wf k H1) as (W & _).
      rewrite (WriteChunk_spec hash hash_range (mk_chunk hash k) p Hp Hb W CF).
      pose proof (image_layout k p Hp Hb H1 CF) as LY.
      destruct (cend_spec (mk_chunk hash k) p Hp Hb W CF) as (_ & B & L & _).
      rewrite (cend_mk k p H1) in *. remember (chunk_end (zlen (k_data k)) (k_nrec k) p) as e1.
      destruct (IH e1 ltac:(lia) B H2 ltac:(lia)) as (qs & out & e & -> & E1 & E2 & E3 & E4 & E5).
      exists (Placed p e1 k :: qs), (chunk_image hash p e1 (cpayload (mk_chunk hash k)) ++ out), e.
      split; [reflexivity|]. split; [cbn [map q_chunk]; rewrite E1; reflexivity|].
      split; [econstructor; eassumption|]. rewrite zlen_app, zlen_chunk_image by lia. repeat split; try assumption; lia.
  Qed.

  (** ** Reading *)
  Lemma zslice_ztake {A} p m n (l : list A) : 0 <= p -> 0 <= m -> p + m <= n -> zslice p m (ztake n l) = zslice p m l.
  Proof.
    intros. unfold zslice. rewrite zdrop_ztake by lia. rewrite ztake_ztake. f_equal. lia.
  Qed.
  Lemma zslice_mid {A} p m (a b c : list A) : zlen a <= p -> 0 <= m -> p + m <= zlen a + zlen b ->
    zslice p m (a ++ b ++ c) = zslice (p - zlen a) m b.
  Proof.
    intros. pose proof (zlen_nonneg a). unfold zslice. rewrite zdrop_app_r by lia. rewrite zdrop_app_l by lia.
    rewrite ztake_app_l; [reflexivity|]. rewrite zlen_zdrop. lia.
  Qed.

  Lemma agree_of c pre out2 n : 0 <= n -> zlen pre <= cend c (zlen pre) ->
    agree hash c (zlen pre) (ztake n (pre ++ chunk_image hash (zlen pre) (cend c (zlen pre)) (cpayload c) ++ out2)).
  Proof.
    intros Hn Hc p m H1 H2 H3 H4. pose proof (zlen_nonneg pre).
    rewrite zlen_ztake in H4. rewrite zslice_ztake by lia.
    rewrite zslice_mid by (rewrite ?zlen_chunk_image; lia).
    unfold chunk_image. rewrite map_zslice by lia. do 2 f_equal. lia.
  Qed.

  Lemma inv_grow c cb content content' r : zlen content <= zlen content' -> inv hash c cb content r -> inv hash c cb content' r.
  Proof. intros H []. constructor; try assumption; lia. Qed.

  (** Reading at the very end. *)
  Lemma blit_nil o l : 0 <= o -> blit o [] l = l.
  Proof. intros. unfold blit. change (zlen (@nil Z)) with 0. rewrite Z.add_0_r. cbn [app]. apply ztake_zdrop. Qed.

  Lemma ReadChunk_at_end content r p : fresh r p -> 0 <= p -> p < 2 ^ 64 -> p = zlen content ->
    exists r', ReadChunk hash content r = Some (None, r') /\ fresh r' p /\ r_trunc r' = false.
  Proof.
    intros [F_open F_failed F_rec F_pos F_spos F_hl F_bl F_data] Hp Hp64 Hl. unfold ReadChunk, PullChunkHeader, r_ok. rewrite F_open, F_failed. cbn [andb negb set_trunc r_spos r_pos].
    rewrite F_pos, F_spos. rewrite Z.ltb_irrefl. rewrite DistanceWithoutOverhead_eq, Z.sub_diag by lia. cbn [Z.ltb Z.compare ChunkHeaderSize].
    unfold ReadChunkHeader. change 42%nat with (S 41). generalize 41%nat as fu. intros fu. cbn [ReadChunkHeader_loop r_spos r_pos set_trunc].
    rewrite ?F_pos, ?F_spos.
    assert (ZD : zdrop p content = []) by (apply zdrop_all; lia).
    destruct (Z_lt_ge_dec (p mod 65536) 24) as [Hm|Hm].
    - rewrite RemHeader by assumption. destruct (Z.ltb_spec 0 (24 - p mod 65536)); [|lia].
      unfold ReadInnerBlockHeader, ReadBlockHeader. cbn [r_spos r_pos set_trunc]. rewrite F_spos, RemHeader by assumption. unfold src_read.
      destruct (Z.leb_spec (p + (24 - p mod 65536)) (zlen content)); [lia|]. rewrite Z.max_r by lia. rewrite ZD.
      cbn [negb]. unfold FailReading. cbn [r_pos r_spos set_spos set_block set_trunc]. rewrite F_pos, <- Hl, Z.ltb_irrefl. cbn [negb].
      eexists; split; [reflexivity|]. pose proof (Z.mod_pos_bound p 65536 ltac:(lia)).
      split; [|reflexivity]. constructor; cbn [r_spos r_pos r_header r_data r_block r_open r_failed r_trunc r_rec r_recpos set_spos set_block set_header set_trunc]; try assumption; try reflexivity. rewrite blit_nil by (blk; lia). assumption.
    - rewrite RemHeader0 by lia. cbn [Z.ltb Z.compare negb set_trunc r_pos r_spos]. rewrite F_pos, F_spos.
      rewrite DistanceWithoutOverhead_eq, Z.sub_diag by lia. unfold src_read.
      change (u64 (ChunkHeaderSize - 0)) with 40.
      destruct (Z.leb_spec (p + Z.min 40 (RemainingInBlock p)) (zlen content)).
      { exfalso. rewrite RemainingInBlock_eq in *. assert (0 < (- p) mod 65536) by (clear - Hm; dml). lia. }
      rewrite Z.max_r by lia. rewrite ZD. cbn [negb]. unfold FailReading. cbn [r_pos r_spos set_spos set_header set_trunc].
      rewrite F_pos, <- Hl, Z.ltb_irrefl.
      eexists; split; [reflexivity|]. split; [|reflexivity]. constructor; cbn [r_spos r_pos r_header r_data r_block r_open r_failed r_trunc r_rec r_recpos set_spos set_block set_header set_trunc]; try assumption; try reflexivity.
      
  Qed.

  (** The state of the reader: the rest of the file from position [p] on is [qs]. *)
  Definition at_file (p : Z) (qs : list placed) (content : list Z) (r : reader) : Prop :=
    match qs with
    | [] => fresh r p
    | q :: _ => inv hash (mk_chunk hash (q_chunk q)) p content r
    end.

  Definition sig_at (p : Z) (qs : list placed) : Prop :=
    p = 0 -> match qs with [] => True | q :: _ => q_chunk q = signature_chunk end.
  Lemma sig_at_ok p k : (p = 0 -> k = signature_chunk) -> sig_ok (mk_chunk hash k) p.
  Proof.
    intros H E. specialize (H E). subst k.
    destruct (mk_chunk_wf signature_chunk) as (_ & _ & A & B & C & _).
    { unfold chunk_ok, signature_chunk. cbn. lia. }
    rewrite A, B, C. cbn. auto.
  Qed.

  Lemma file_layout_facts p qs out e : file_layout hash p qs out e -> e + 64 <= 2 ^ 64 -> 0 <= p -> chunk_boundary p ->
    Forall (fun q => chunk_ok (q_chunk q)) qs -> e = p + zlen out /\ chunk_boundary e.
  Proof.
    induction 1 as [p|p e1 k qs o1 o2 E L F IH]; intros H64 Hp Hb Hk; [cbn; split; [lia|assumption]|].
    inversion Hk; subst. pose proof L as (L1 & (L2 & _) & _). destruct L2 as (L2 & L3 & L4 & _).
    rewrite zlen_app. destruct (IH H64 ltac:(lia) L2 H2) as [IH1 IH2]. split; [lia|assumption].
  Qed.

  Lemma fresh_at_file p qs out e content r : file_layout hash p qs out e -> 0 <= p -> chunk_boundary p -> e + 64 <= 2 ^ 64 ->
    Forall (fun q => chunk_ok (q_chunk q)) qs -> p <= zlen content -> fresh r p -> at_file p qs content r.
  Proof.
    intros L Hp Hb H64 Hk Hc F. destruct L as [p|p e1 k qs o1 o2 E L1 L2]; cbn [at_file q_chunk]; [exact F|].
    pose proof (Forall_inv Hk) as Hk1. pose proof (Forall_inv_tail Hk) as Hk2. cbn beta in *. cbn [q_chunk] in *.
    pose proof L1 as (Y1 & Y2 & _). destruct Y2 as ((Y2 & Y3 & Y4 & Y5) & _).
    destruct (file_layout_facts e1 qs o2 E) as [F1 F2]; try assumption; try lia. pose proof (zlen_nonneg o2) as Z2.
    destruct (layout_image p e1 k o1 L1 Hp Hb Hk1 ltac:(lia)) as (G1 & G2 & G3).
    destruct (mk_chunk_wf k Hk1) as (W1 & W2 & _).
    apply fresh_inv; try assumption; lia.
  Qed.

  Definition chunk_of (q : placed) : chunk := mk_chunk hash (q_chunk q).

  (** One ReadChunk call at a moment when the file is cut at [n]. *)
  Lemma file_step p qs pre out e n r :
    file_layout hash p qs out e -> zlen pre = p -> chunk_boundary p -> e + 64 <= 2 ^ 64 ->
    Forall (fun q => chunk_ok (q_chunk q)) qs -> sig_at p qs -> p <= n <= e ->
    let content := ztake n (pre ++ out) in
    at_file p qs content r ->
    match qs with
    | [] => exists r', ReadChunk hash content r = Some (None, r') /\ fresh r' p /\ r_trunc r' = false
    | q :: qs' =>
        q_begin q = p /\ p < q_end q /\
        if q_end q <=? n then
          exists r' out1 out2, ReadChunk hash content r = Some (Some (chunk_of q), r') /\ 
            out = out1 ++ out2 /\ zlen (pre ++ out1) = q_end q /\ file_layout hash (q_end q) qs' out2 e /\ chunk_boundary (q_end q) /\
            at_file (q_end q) qs' content r' /\ r_trunc r' = false
        else exists r', ReadChunk hash content r = Some (None, r') /\ at_file p qs content r' /\ r_trunc r' = (p <? n)
    end.
  Proof.
    intros L Hpre Hb H64 Hk Hs Hn. remember (ztake n (pre ++ out)) as content eqn:HC. cbv zeta. intros A. pose proof (zlen_nonneg pre) as Hp0.
    destruct (file_layout_facts p qs out e L H64 ltac:(lia) Hb Hk) as [He Hbe].
    assert (ZC : zlen content = n) by (subst content; rewrite zlen_ztake, zlen_app; lia).
    destruct L as [p|p e1 k qs o1 o2 E L1 L2]; cbn [at_file] in A.
    - apply ReadChunk_at_end; try assumption; try lia.
    - pose proof (Forall_inv Hk) as Hk1. pose proof (Forall_inv_tail Hk) as Hk2. cbn beta in *. cbn [q_chunk] in *.
      subst p.
      pose proof L1 as (Y1 & Y2 & _). destruct Y2 as ((Y2 & Y3 & Y4 & Y5) & _).
      destruct (file_layout_facts e1 qs o2 E) as [F1 F2]; try assumption; try lia.
      pose proof (zlen_nonneg o2) as Z2.
      destruct (layout_image (zlen pre) e1 k o1 L1 Hp0 Hb Hk1 ltac:(lia)) as (G1 & G2 & G3).
      destruct (mk_chunk_wf k Hk1) as (W1 & W2 & _).
      destruct (cend_spec (mk_chunk hash k) (zlen pre) Hp0 Hb W1 G2) as (_ & B & [LL1 LL2] & _).
      assert (AG : agree hash (mk_chunk hash k) (zlen pre) content).
      { rewrite HC, G3, G1. apply agree_of; lia. }
      assert (SG : sig_ok (mk_chunk hash k) (zlen pre)) by (apply sig_at_ok; exact Hs).
      destruct (ReadChunk_step hash hash_range (mk_chunk hash k) (zlen pre) Hp0 Hb W1 W2 G2 SG content r AG A) as [S1 S2].
      cbn [q_end q_begin q_chunk]. rewrite <- G1 in *. split; [reflexivity|]. split; [lia|].
      destruct (Z.leb_spec e1 n) as [Hen|Hen].
      + destruct (S1 ltac:(lia)) as (r' & R1 & R2 & R3). exists r', o1, o2. split; [exact R1|].
        split; [reflexivity|]. split; [rewrite zlen_app; lia|]. split; [exact L2|]. split; [assumption|]. split; [|exact R3].
        apply (fresh_at_file e1 qs o2 E); try assumption; lia.
      + destruct (S2 ltac:(lia)) as (r' & R1 & (R2 & R3 & R4)). exists r'. rewrite ZC in R4. auto.
  Qed.

  Lemma at_file_grow p qs content content' r : zlen content <= zlen content' -> at_file p qs content r -> at_file p qs content' r.
  Proof. intros H. destruct qs; cbn; [auto|]. apply inv_grow. exact H. Qed.

  Lemma sig_at_later p qs : 0 < p -> sig_at p qs.
  Proof. intros H E. lia. Qed.

  Lemma at_file_ok p qs content r : at_file p qs content r -> r_open r = true /\ r_failed r = false /\ r_rec r = kNo.
  Proof. destruct qs; cbn; intros []; auto. Qed.

  Lemma schedule lens : forall p qs pre out e n0 r,
    file_layout hash p qs out e -> zlen pre = p -> chunk_boundary p -> e + 64 <= 2 ^ 64 ->
    Forall (fun q => chunk_ok (q_chunk q)) qs -> sig_at p qs -> p <= n0 -> Forall (fun n => n0 <= n <= e) lens ->
    Sorted Z.le lens -> n0 <= e -> at_file p qs (ztake n0 (pre ++ out)) r ->
    exists r', ReadSchedule hash (pre ++ out) lens r = Some (map (option_map (mk_chunk hash)) (expected_reads qs lens), r') /\
      r_open r' = true /\ r_failed r' = false.
  Proof.
    induction lens as [|n lens IH]; intros p qs pre out e n0 r L Hpre Hb H64 Hk Hs Hn0 HF HS Hne A; cbn [ReadSchedule expected_reads map].
    - exists r. destruct (at_file_ok _ _ _ _ A) as (O1 & O2 & _). auto.
    - inversion HF as [|? ? Hn HF']; subst. inversion HS as [|? ? HS' HR]; subst.
      pose proof (zlen_nonneg pre) as Hp0.
      destruct (file_layout_facts _ qs out e L H64 ltac:(lia) Hb Hk) as [He Hbe].
      assert (HF2 : Forall (fun m => n <= m <= e) lens).
      { apply Sorted_extends in HS; [|intros a b c; lia]. rewrite Forall_forall in *. intros x Hx. specialize (HS x Hx). specialize (HF' x Hx). cbv beta in *. lia. }
      assert (A' : at_file (zlen pre) qs (ztake n (pre ++ out)) r).
      { eapply at_file_grow; [|exact A]. rewrite !zlen_ztake. lia. }
      pose proof (file_step (zlen pre) qs pre out e n r L eq_refl Hb H64 Hk Hs ltac:(lia) A') as ST. cbv zeta in ST.
      destruct qs as [|q qs].
      + destruct ST as (r1 & -> & F1 & _).
        destruct (IH (zlen pre) [] pre out e n r1) as (r' & -> & O); try assumption; try reflexivity; try lia.
        exists r'. auto.
      + destruct ST as (B1 & B2 & ST). destruct (Z.leb_spec (q_end q) n) as [Hq|Hq].
        * destruct ST as (r1 & out1 & out2 & -> & -> & ZP & L2 & Hb2 & A2 & _).
          destruct (IH (q_end q) qs (pre ++ out1) out2 e n r1) as (r' & IHE & O); try assumption; try lia.
          { apply Forall_inv_tail in Hk. exact Hk. }
          { apply sig_at_later. lia. }
          { rewrite <- app_assoc. exact A2. }
          rewrite <- app_assoc in IHE. rewrite IHE. exists r'. auto.
        * destruct ST as (r1 & -> & A1 & _).
          destruct (IH (zlen pre) (q :: qs) pre out e n r1) as (r' & -> & O); try assumption; try reflexivity; try lia.
          exists r'. auto.
  Qed.

  Lemma layout_ends p qs out e : file_layout hash p qs out e -> Forall (fun q => p <= q_begin q <= q_end q) qs.
  Proof.
    induction 1 as [p|p e1 k qs o1 o2 E L F IH]; constructor; cbn.
    - destruct L as (_ & ((_ & _ & X & _) & _) & _). lia.
    - destruct L as (_ & ((_ & _ & X & _) & _) & _). rewrite Forall_forall in *. intros q Hq. specialize (IH q Hq). cbv beta in IH. lia.
  Qed.

  Lemma read_all : forall qs fuel p pre out e n r, 
    file_layout hash p qs out e -> zlen pre = p -> chunk_boundary p -> e + 64 <= 2 ^ 64 ->
    Forall (fun q => chunk_ok (q_chunk q)) qs -> sig_at p qs -> p <= n <= e -> (length qs < fuel)%nat ->
    at_file p qs (ztake n (pre ++ out)) r ->
    exists r', ReadAll hash fuel (ztake n (pre ++ out)) r
               = Some (map (fun q => mk_chunk hash (q_chunk q)) (filter (fun q => q_end q <=? n) qs), r') /\
      r_open r' = true /\ r_failed r' = false /\
      (r_trunc r' = true <-> exists q, In q qs /\ q_begin q < n < q_end q).
  Proof.
    induction qs as [|q qs IH]; intros fuel p pre out e n r L Hpre Hb H64 Hk Hs Hn Hfu A;
      (destruct fuel as [|fuel]; [cbn in Hfu; lia|]); cbn [ReadAll];
      pose proof (file_step p _ pre out e n r L Hpre Hb H64 Hk Hs Hn A) as ST; cbv zeta in ST.
    - destruct ST as (r1 & -> & [] & T). exists r1. cbn [filter map]. rewrite T.
      repeat split; try assumption; [discriminate|]. intros (q & [] & _).
    - destruct ST as (B1 & B2 & ST). cbn [filter]. destruct (Z.leb_spec (q_end q) n) as [Hq|Hq].
      + destruct ST as (r1 & out1 & out2 & -> & -> & ZP & L2 & Hb2 & A2 & _).
        destruct (IH fuel (q_end q) (pre ++ out1) out2 e n r1) as (r' & IHE & O1 & O2 & O3); try assumption; try lia.
        { apply Forall_inv_tail in Hk. exact Hk. }
        { apply sig_at_later. pose proof (zlen_nonneg pre). lia. }
        { cbn in Hfu. lia. }
        { rewrite <- app_assoc. exact A2. }
        rewrite <- app_assoc in IHE. rewrite IHE. exists r'. cbn [map]. repeat split; try assumption.
        * intros T. destruct (proj1 O3 T) as (q' & I & J). exists q'. cbn. auto.
        * intros (q' & [<-|I] & J); [lia|]. apply O3. eauto.
      + destruct ST as (r1 & -> & A1 & T). exists r1. destruct (at_file_ok _ _ _ _ A1) as (O1 & O2 & _).
        inversion L as [|? ? ? ? o1 o2 ? L1 L2]; subst. cbn [q_end q_begin] in *.
        assert (EL : Forall (fun q => (q_end q <=? n) = false) qs).
        { apply layout_ends in L2. rewrite Forall_forall in *. intros q' Hq'. specialize (L2 q' Hq'). cbv beta in L2. apply Z.leb_gt. lia. }
        assert (FN : filter (fun q => q_end q <=? n) qs = []).
        { clear - EL. induction EL as [|x l Hx Hl IHl]; cbn; [reflexivity|]. rewrite Hx. exact IHl. }
        rewrite FN. cbn [map]. repeat split; try assumption.
        * rewrite T. intros Lt. apply Z.ltb_lt in Lt. eexists. split; [left; reflexivity|]. cbn. lia.
        * rewrite T. intros (q' & [<-|I] & J); cbn in J; [apply Z.ltb_lt; lia|].
          apply layout_ends in L2. rewrite Forall_forall in L2. specialize (L2 q' I). cbv beta in L2. lia.
  Qed.

  Lemma init_fresh p : chunk_boundary p -> fresh (InitializeReader p) p.
  Proof.
    intros Hb. unfold InitializeReader. apply IsPossibleChunkBoundary_iff in Hb. rewrite Hb. constructor; reflexivity.
  Qed.

  Lemma Close_result r : r_open r = true -> r_failed r = false -> fst (Close r) = negb (r_trunc r).
  Proof. intros O F. unfold Close. rewrite O. destruct (r_trunc r); cbn; [reflexivity|]. rewrite F. reflexivity. Qed.

  (** ** Final forms *)
  Lemma layout_length p qs out e : file_layout hash p qs out e -> e + 64 <= 2 ^ 64 -> 0 <= p -> chunk_boundary p ->
    Forall (fun q => chunk_ok (q_chunk q)) qs -> (length qs <= length out)%nat.
  Proof.
    induction 1 as [p|p e1 k qs o1 o2 E L F IH]; intros H64 Hp Hb Hk; [cbn; lia|].
    pose proof (Forall_inv Hk) as Hk1. pose proof (Forall_inv_tail Hk) as Hk2. cbn beta in *. cbn [q_chunk] in *.
    pose proof L as (L1 & ((L2 & L3 & L4 & L5) & _) & _). pose proof Hk1 as (K1 & K2 & _).
    destruct (file_layout_facts e1 qs o2 E F H64 ltac:(lia) L2 Hk2) as [X1 X2]. pose proof (zlen_nonneg o2).
    specialize (IH H64 ltac:(lia) L2 Hk2). rewrite app_length. cbn [length].
    assert (p < e1). { destruct (Z.eq_dec p e1); [|lia]. subst e1. rewrite payload_closed in L5 by lia. pose proof (zlen_nonneg (k_data k)). lia. }
    unfold zlen in *. lia.
  Qed.

  Theorem valid_read_all p qs file n : valid_file hash p qs file -> p <= n <= zlen file ->
    exists r', ReadAll hash (S (length file)) (ztake n file) (InitializeReader p)
               = Some (map (fun q => mk_chunk hash (q_chunk q)) (filter (fun q => q_end q <=? n) qs), r') /\
      r_ok r' = true /\ (fst (Close r') = false <-> exists q, In q qs /\ q_begin q < n < q_end q).
  Proof.
    intros [(Hp & Hb) Hk Hs (pre & out & EF & Hpre & L) H64] Hn.
    pose proof (layout_length _ _ _ _ L H64 Hp Hb Hk) as LL.
    rewrite EF.
    destruct (read_all qs (S (length (pre ++ out))) p pre out (zlen file) n (InitializeReader p)) as (r' & E1 & O1 & O2 & O3); try assumption.
    { rewrite app_length. lia. }
    { apply (fresh_at_file p qs out (zlen file)); try assumption; [|apply init_fresh; assumption]. rewrite <- EF, zlen_ztake. lia. }
    exists r'. split; [exact E1|]. unfold r_ok. rewrite O1, O2. split; [reflexivity|].
    rewrite Close_result by assumption. rewrite <- O3. destruct (r_trunc r'); cbn; split; congruence.
  Qed.

  Theorem valid_schedule p qs file lens : valid_file hash p qs file ->
    Sorted Z.le lens -> Forall (fun n => p <= n <= zlen file) lens ->
    exists r', ReadSchedule hash file lens (InitializeReader p)
               = Some (map (option_map (mk_chunk hash)) (expected_reads qs lens), r') /\ r_ok r' = true.
  Proof.
    intros [(Hp & Hb) Hk Hs (pre & out & EF & Hpre & L) H64] HS HF. rewrite EF.
    destruct (file_layout_facts _ _ _ _ L H64 Hp Hb Hk) as [He Hbe]. pose proof (zlen_nonneg out).
    destruct (schedule lens p qs pre out (zlen file) p (InitializeReader p)) as (r' & E1 & O1 & O2); try assumption; try lia.
    { apply (fresh_at_file p qs out (zlen file)); try assumption; [|apply init_fresh; assumption]. rewrite <- EF, zlen_ztake. lia. }
    exists r'. split; [exact E1|]. unfold r_ok. rewrite O1, O2. reflexivity.
  Qed.

  Lemma WritePadding_after padding pos : 0 <= pos -> chunk_boundary pos -> 
    (64 <= padding /\ 65536 mod padding = 0 \/ 65536 <= padding /\ padding mod 65536 = 0) ->
    pos + 60 * padding + 200 < 2 ^ 64 -> pos mod padding <> 0 ->
    exists out e n, PosAfterPadding pos padding = Some e /\ WritePadding hash padding pos = Some (out, e) /\ e mod padding = 0 /\ pos < e <= pos + 25 * padding + 40 /\ 0 <= n /\
      chunk_layout hash pos e (Chunk kPadding 0 0 (zeros n)) out.
  Proof.
    intros Hp Hb Hg Hs Hm.
    destruct (PosAfterPadding_spec pos padding Hp ltac:(lia) ltac:(lia)) as (e & E1 & E2 & E3 & _ & E5).
    destruct (E5 Hm) as (E6 & E7 & E8).
    pose proof (padding_distance pos padding e Hp Hb Hm Hg E6 E3 E8) as PD.
    unfold WritePadding. rewrite E1. destruct (Z.eqb_spec e pos) as [?|Hne]; [lia|].
    rewrite DistanceWithoutOverhead_eq by lia. blk. destruct (Z.ltb_spec (pos_payload e - pos_payload pos) 40); [lia|].
    remember (pos_payload e - pos_payload pos - 40) as n.
    assert (PB : pos_payload e - pos_payload pos <= e - pos).
    { clear - E2 Hp. unfold pos_payload. dml. }
    assert (ZN : zlen (zeros n) = n) by (rewrite zlen_zeros; lia).
    assert (OK : chunk_ok (Chunk kPadding 0 0 (zeros n))).
    { unfold chunk_ok. cbn [k_type k_nrec k_dsize k_data]. rewrite ZN. unfold kPadding. lia. }
    assert (EC : chunk_end n 0 pos = e).
    { unfold chunk_end. destruct (add_ov_spec pos (40 + n) Hp Hb ltac:(lia)) as (A1 & A2 & A3 & _).
      destruct (round_up_spec (pos + 0) ltac:(lia)) as (_ & _ & R). specialize (R pos ltac:(lia) Hb).
      assert (add_ov pos (40 + n) = e) by (apply boundary_eq; try assumption; lia). lia. }
    assert (F : cfits (mk_chunk hash (Chunk kPadding 0 0 (zeros n))) pos).
    { apply cfits_mk; [assumption|]. cbn [k_data k_nrec]. rewrite ZN. apply fits_of_end; try assumption; lia. }
    destruct (mk_chunk_wf _ OK) as (W & _).
    pose proof (WriteChunk_spec hash hash_range _ pos Hp Hb W F) as WC.
    pose proof (image_layout _ pos Hp Hb OK F) as LY.
    rewrite cend_mk in * by assumption. cbn [k_data k_nrec] in *. rewrite ZN, EC in *.
    eexists _, e, n. split; [reflexivity|]. split; [exact WC|]. split; [assumption|]. split; [lia|]. split; [lia|]. exact LY.
  Qed.
  Lemma WritePadding_spec padding pos : 0 <= pos -> chunk_boundary pos -> 
    (64 <= padding /\ 65536 mod padding = 0 \/ 65536 <= padding /\ padding mod 65536 = 0) ->
    pos + 60 * padding + 200 < 2 ^ 64 -> pos mod padding <> 0 ->
    exists out e n, WritePadding hash padding pos = Some (out, e) /\ e mod padding = 0 /\ pos < e <= pos + 25 * padding + 40 /\ 0 <= n /\
      chunk_layout hash pos e (Chunk kPadding 0 0 (zeros n)) out.
  Proof. intros H1 H2 H3 H4 H5. destruct (WritePadding_after padding pos H1 H2 H3 H4 H5) as (out & e & n & _ & R). exists out, e, n. exact R. Qed.
End File.
