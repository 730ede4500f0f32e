(** The statements of Props/ChunkProps.v, from the main lemmas. *)
From Coq Require Import Sorted.
From Verif Require Import Base.Bytes Model.Endian Model.Block Model.Chunk Model.ChunkWriter Model.ChunkReader
  Spec.BlockSpec Spec.FileSpec Spec.ChunkLink Proof.EndianProof Proof.BlockProof Proof.ChunkWriterProof Proof.ChunkReaderProof Proof.FileProof.

Lemma block_overhead chunk_begin length :
  0 <= chunk_begin -> chunk_boundary chunk_begin -> 0 <= length ->
  chunk_begin + length + (length / 65512 + 1) * 24 < 2 ^ 64 ->
  let e := AddWithOverhead chunk_begin length in
  chunk_begin <= e < 2 ^ 64 /\ payload_between chunk_begin e = length /\
  (forall q, chunk_begin <= q < e -> payload_between chunk_begin q < length) /\
  DistanceWithoutOverhead chunk_begin e = length.
Proof.
  intros H0 Hb Hl Ho. cbv zeta. rewrite AddWithOverhead_eq by assumption.
  destruct (add_ov_spec chunk_begin length H0 Hb Hl) as (A & B & C & D).
  pose proof (no_overflow_end chunk_begin length H0 Hb Hl Ho).
  split; [lia|]. rewrite payload_closed by lia. split; [lia|]. split.
  - intros q Hq. rewrite payload_closed by lia. apply D. lia.
  - rewrite DistanceWithoutOverhead_eq by lia. lia.
Qed.

Lemma ChunkEnd_least data_size num_records chunk_begin e :
  0 <= chunk_begin -> chunk_boundary chunk_begin -> 0 <= data_size -> 0 <= num_records ->
  least_chunk_end chunk_begin (40 + data_size) num_records e -> e + 64 <= 2 ^ 64 ->
  ChunkEnd data_size num_records chunk_begin = e.
Proof.
  intros H0 Hb Hd Hn HL He. apply (least_chunk_end_iff) in HL; try assumption. subst e.
  destruct (fits_of_end chunk_begin data_size num_records) as [F1 F2]; try assumption.
  apply ChunkEnd_eq; assumption.
Qed.
Lemma RoundUp_least pos : 0 <= pos -> pos + 24 < 2 ^ 64 ->
  let e := RoundUpToPossibleChunkBoundary pos in
  pos <= e /\ chunk_boundary e /\ (forall q, pos <= q -> chunk_boundary q -> e <= q).
Proof.
  intros H1 H2. cbv zeta. rewrite RoundUp_eq by assumption. destruct (round_up_spec pos H1) as (A & B & C).
  split; [lia|]. auto.
Qed.

Lemma PosAfterPadding_least pos padding : 0 <= pos -> 2 <= padding -> pos + 26 * padding + 40 < 2 ^ 64 ->
  exists e, PosAfterPadding pos padding = Some e /\ pos <= e /\ e mod padding = 0 /\
    (pos mod padding = 0 -> e = pos) /\
    (pos mod padding <> 0 -> pos + 40 <= e /\ chunk_boundary e /\
       forall q, q mod padding = 0 -> pos + 40 <= q -> chunk_boundary q -> e <= q).
Proof.
  intros H1 H2 H3. destruct (PosAfterPadding_spec pos padding H1 H2 H3) as (e & A & B & C & D & E).
  exists e. split; [assumption|]. split; [lia|]. auto.
Qed.
Lemma WritePadding_none hash padding pos : padding <= 1 \/ pos mod padding = 0 ->
  WritePadding hash padding pos = Some ([], pos).
Proof.
  intros H. unfold WritePadding, PosAfterPadding. destruct (Z.leb_spec padding 1); [rewrite Z.eqb_refl; reflexivity|].
  destruct H; [lia|]. rewrite H, Z.eqb_refl. rewrite Z.eqb_refl. reflexivity.
Qed.
Lemma padding_refuted :
  Forall (fun '(padding, pos, e, d) =>
    chunk_boundary pos /\ pos mod padding <> 0 /\ PosAfterPadding pos padding = Some e /\
    DistanceWithoutOverhead pos e = d /\ d < ChunkHeaderSize /\ forall hash, WritePadding hash padding pos = None)
  [(32, 65528, 65568, 16); (50, 131055, 131100, 21); (65561, 65516, 65561, 21)].
Proof.
  assert (G : forall padding pos e d, 24 <? pos mod 65536 = true -> pos mod padding =? 0 = false ->
    PosAfterPadding pos padding = Some e -> DistanceWithoutOverhead pos e = d -> d <? ChunkHeaderSize = true -> e =? pos = false ->
    chunk_boundary pos /\ pos mod padding <> 0 /\ PosAfterPadding pos padding = Some e /\
    DistanceWithoutOverhead pos e = d /\ d < ChunkHeaderSize /\ forall hash, WritePadding hash padding pos = None).
  { intros padding pos e d H1 H2 H3 H4 H5 H6. split; [right; lia|]. split; [lia|]. split; [assumption|]. split; [assumption|].
    split; [lia|]. intros hash. unfold WritePadding. rewrite H3, H6, H4, H5. reflexivity. }
  constructor; [|constructor; [|constructor; [|constructor]]]; apply G; vm_compute; reflexivity.
Qed.

Lemma chunk_header_fields hash k : (forall l, 0 <= hash l < 2 ^ 64) -> chunk_ok k ->
  let h := ChunkHeader hash (k_data k) (k_type k) (k_nrec k) (k_dsize k) in
  h = chunk_header_bytes hash k /\ zlen h = 40 /\ bytes h /\
  ch_data_size h = zlen (k_data k) /\ ch_data_hash h = hash (k_data k) /\ ch_chunk_type h = k_type k /\
  ch_num_records h = k_nrec k /\ ch_decoded_data_size h = k_dsize k /\
  ch_stored_header_hash h = ch_computed_header_hash hash h.
Proof.
  intros HR Hk. cbv zeta. split; [apply ChunkHeader_bytes; assumption|].
  destruct Hk as (H1 & H2 & H3 & H4).
  destruct (ChunkHeader_codec hash HR (k_data k) (k_type k) (k_nrec k) (k_dsize k)) as (A1 & A2 & A3 & A4 & A5 & A6 & A7 & A8); try assumption.
  { unfold kMaxNumRecords. lia. }
  repeat split; assumption.
Qed.
Lemma block_header_fields hash previous next : (forall l, 0 <= hash l < 2 ^ 64) ->
  0 <= previous < 2 ^ 64 -> 0 <= next < 2 ^ 64 ->
  let b := BlockHeader hash previous next in
  b = block_header_bytes hash previous next /\ zlen b = 24 /\ bytes b /\
  bh_previous_chunk b = previous /\ bh_next_chunk b = next /\
  bh_stored_header_hash b = bh_computed_header_hash hash b.
Proof.
  intros HR H1 H2. cbv zeta. split; [apply BlockHeader_bytes|].
  destruct (BlockHeader_codec hash HR previous next H1 H2) as (A & B & C & D & E). repeat split; assumption.
Qed.
Lemma chunk_serialization hash k rest : (forall l, 0 <= hash l < 2 ^ 64) -> chunk_ok k ->
  Chunk_ReadFrom (Chunk_WriteTo (mk_chunk hash k) ++ rest) = Some (mk_chunk hash k, rest).
Proof.
  intros HR Hk. destruct (mk_chunk_wf hash HR k Hk) as ((W1 & W2 & W3) & _).
  unfold Chunk_ReadFrom, Chunk_WriteTo. rewrite <- app_assoc. rewrite zlen_app, W1.
  pose proof (zlen_nonneg (c_data (mk_chunk hash k) ++ rest)). blk.
  destruct (Z.ltb_spec (40 + zlen (c_data (mk_chunk hash k) ++ rest)) 40); [lia|].
  assert (T1 : forall x, ztake 40 (c_header (mk_chunk hash k) ++ x) = c_header (mk_chunk hash k)) by (intros x; rewrite <- W1; apply ztake_app_exact).
  assert (T2 : forall x, zdrop 40 (c_header (mk_chunk hash k) ++ x) = x) by (intros x; rewrite <- W1; apply zdrop_app_exact).
  rewrite T1, T2, W3.
  rewrite zlen_app. pose proof (zlen_nonneg rest). destruct (Z.ltb_spec (zlen (c_data (mk_chunk hash k)) + zlen rest) (zlen (c_data (mk_chunk hash k)))); [lia|].
  rewrite ztake_app_exact, zdrop_app_exact. reflexivity.
Qed.

Lemma writer_layout hash ks p : (forall l, 0 <= hash l < 2 ^ 64) ->
  0 <= p -> chunk_boundary p -> Forall chunk_ok ks -> p + rooms ks < 2 ^ 64 ->
  exists qs out e, WriteChunks hash (map (mk_chunk hash) ks) p = Some (out, e) /\
    map q_chunk qs = ks /\ file_layout hash p qs out e /\ e = p + zlen out.
Proof.
  intros HR Hp Hb Hk Hr. destruct (WriteChunks_layout hash HR ks p Hp Hb Hk Hr) as (qs & out & e & A & B & C & D & _).
  exists qs, out, e. auto.
Qed.

Lemma filter_all {A} (f : A -> bool) l : Forall (fun x => f x = true) l -> filter f l = l.
Proof. induction 1 as [|x l H F IH]; cbn; [reflexivity|]. rewrite H, IH. reflexivity. Qed.

Lemma read_valid_file hash p qs file : (forall l, 0 <= hash l < 2 ^ 64) ->
  valid_file hash p qs file ->
  exists r, ReadAll hash (S (length file)) file (InitializeReader p) =
      Some (map (fun q => mk_chunk hash (q_chunk q)) qs, r) /\ r_ok r = true /\ fst (Close r) = true.
Proof.
  intros HR V. pose proof V as [(Hp & Hb) Hk Hs (pre & out & EF & Hpre & L) H64].
  destruct (file_layout_facts hash HR p qs out _ L H64 Hp Hb Hk) as [He Hbe]. pose proof (zlen_nonneg out).
  destruct (valid_read_all hash HR p qs file (zlen file) V ltac:(lia)) as (r & E1 & E2 & E3).
  assert (FE : Forall (fun q => q_end q <= zlen file) qs).
  { clear - L Hb Hp H64 Hk HR. remember (zlen file) as e. clear Heqe. revert Hp Hb H64 Hk.
    induction L as [p|p e1 k qs o1 o2 E L1 L2 IH]; intros Hp Hb H64 Hk; constructor.
    - cbn. pose proof L1 as (_ & ((X & _ & Y & _) & _) & _). 
      destruct (file_layout_facts hash HR e1 qs o2 E L2 H64 ltac:(lia) X (Forall_inv_tail Hk)) as [Q _]. pose proof (zlen_nonneg o2). lia.
    - pose proof L1 as (_ & ((X & _ & Y & _) & _) & _). apply IH; try assumption; try lia. exact (Forall_inv_tail Hk). }
  rewrite ztake_all in E1 by lia.
  rewrite filter_all in E1.
  2:{ rewrite Forall_forall in *. intros q Hq. specialize (FE q Hq). cbv beta in FE. apply Z.leb_le. assumption. }
  exists r. split; [exact E1|]. split; [exact E2|].
  destruct (fst (Close r)); [reflexivity|]. destruct (proj1 E3 eq_refl) as (q & I & J).
  rewrite Forall_forall in FE. specialize (FE q I). cbv beta in FE. lia.
Qed.

Lemma chunk_round_trip hash ks : (forall l, 0 <= hash l < 2 ^ 64) ->
  Forall chunk_ok ks -> rooms (signature_chunk :: ks) + 64 < 2 ^ 64 ->
  exists file, WriteChunks hash (map (mk_chunk hash) (signature_chunk :: ks)) 0 = Some (file, zlen file) /\
    exists r, ReadAll hash (S (length file)) file (InitializeReader 0) =
      Some (map (mk_chunk hash) (signature_chunk :: ks), r) /\ r_ok r = true /\ fst (Close r) = true.
Proof.
  intros HR Hk Hr.
  assert (Hk' : Forall chunk_ok (signature_chunk :: ks)) by (constructor; [unfold chunk_ok; cbn; lia|assumption]).
  assert (Hb0 : chunk_boundary 0) by (left; reflexivity).
  destruct (WriteChunks_layout hash HR _ 0 ltac:(lia) Hb0 Hk' ltac:(lia)) as (qs & out & e & A & B & C & D & E & _).
  rewrite Z.add_0_l in D. subst e. exists out. split; [exact A|].
  assert (V : valid_file hash 0 qs out).
  { constructor.
    - split; [lia|assumption].
    - rewrite <- B in Hk'. rewrite Forall_forall in *. intros q Hq. apply Hk', in_map, Hq.
    - intros _. destruct qs; [exact I|]. cbn in B. injection B as ? ?. assumption.
    - exists [], out. auto.
    - lia. }
  destruct (read_valid_file hash 0 qs out HR V) as (r & R1 & R2 & R3). exists r.
  rewrite R1. rewrite <- (map_map q_chunk (mk_chunk hash)), B. auto.
Qed.

Lemma expected_reads_prefix qs lens :
  flat_map (fun o => match o with Some k => [k] | None => [] end) (expected_reads qs lens)
  = firstn (length (filter (fun o => match o with Some _ => true | None => false end) (expected_reads qs lens)))
           (map q_chunk qs).
Proof.
  revert qs; induction lens as [|n lens IH]; intros qs; cbn [expected_reads flat_map filter length firstn]; [reflexivity|].
  destruct qs as [|q qs]; cbn [flat_map filter app]; [apply IH|].
  destruct (q_end q <=? n); cbn [flat_map filter app length map firstn]; [rewrite IH; reflexivity|apply (IH (q :: qs))].
Qed.
