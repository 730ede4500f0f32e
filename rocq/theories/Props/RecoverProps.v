(** C15-C18: arbitrary and damaged files, recovery, seeking to a chunk. *)
From Verif Require Import Base.Bytes Model.Block Model.Chunk Model.ChunkWriter Model.ChunkReader
  Spec.BlockSpec Spec.FileSpec Spec.ChunkLink Spec.RecoverSpec Spec.SeekSpec
  Proof.AnyRead Proof.RecoverLemmas Proof.LocalProof Proof.SeekProof Proof.HangProof Proof.FileProof.

(** C15: whatever bytes the source holds (as long as it does not shrink) and whatever calls are made, each
    chunk returned is one whose stored hashes and sizes match its contents. *)
Theorem C15_only_valid_chunks hash p n ops cs r : (forall l, 0 <= hash l < 2 ^ 64) ->
  0 <= p <= n -> n < 2 ^ 62 -> growing n ops ->
  RunOps hash ops (InitializeReader p) = Some (cs, r) ->
  Forall (fun c => exists k, chunk_ok k /\ c = MkChunk (chunk_header_bytes hash k) (k_data k)) cs.
Proof.
  intros HR P N G E. eapply Forall_impl; [|exact (any_calls hash HR p n ops cs r P N G E)].
  intros c (k & K & ->). exists k. split; [exact K|]. unfold mk_chunk. rewrite ChunkHeader_bytes by exact K. reflexivity.
Qed.

(** C16: replace the bytes [m] of a valid file by any [m'] of the same length which does not accidentally match a
    hash.  Reading with recovery returns, in order and at their original positions, all the original chunks
    except possibly some of those which end after the beginning of the damage and begin before the first block
    boundary at least 63 bytes after the end of the damage; everything else is reported as skipped. *)
Theorem C16_local hash qs a m m' b fuel : (forall l, 0 <= hash l < 2 ^ 64) ->
  valid_file hash 0 qs (a ++ m ++ b) -> zlen m' = zlen m -> bytes (a ++ m' ++ b) ->
  zlen (a ++ m' ++ b) < 2 ^ 62 -> no_forgery hash (a ++ m ++ b) (a ++ m' ++ b) qs ->
  (length (a ++ m' ++ b) + 3 <= fuel)%nat ->
  exists es r' qs', ReadAllRecovering hash fuel (a ++ m' ++ b) (InitializeReader 0) = Some (es, r') /\
    tiles 0 es (zlen (a ++ m' ++ b)) /\ r_ok r' = true /\
    got_events es = map (fun q => Got (q_begin q) (mk_chunk hash (q_chunk q)) (q_end q)) qs' /\
    selects (fun q => zlen a < q_end q /\ q_begin q < rup (zlen a + zlen m + 63)) qs qs'.
Proof. exact (fun H => local_damage hash H qs a m m' b fuel). Qed.

(** C17: on any content with credible block headers, reading with recovery terminates, the chunks and the skipped
    regions are non-empty and cover the file from the initial position on without going back. *)
Theorem C17_progress hash content p fuel : bytes content -> zlen content < 2 ^ 62 -> credible hash content ->
  0 <= p <= zlen content -> chunk_boundary p \/ p < zlen content -> (length content + 3 <= fuel)%nat ->
  exists es r q, ReadAllRecovering hash fuel content (InitializeReader p) = Some (es, r) /\
    tiles p es q /\ q <= zlen content /\ r_ok r = true.
Proof. exact (recovering_terminates hash content p fuel). Qed.
(** Without the assumption the claim is false: a file of 24 bytes on which reading with recovery never ends,
    each Recover() reporting the empty region [0, 0), and a file on which a single Recover() never ends. *)
Theorem C17_progress_refuted :
  exists hash content, (forall l, 0 <= hash l < 2 ^ 64) /\ zlen content = 24 /\
    (exists r r', ReadChunk hash content (InitializeReader 0) = Some (None, r) /\ Recover hash content r = Some (Some (0, 0), r')) /\
    forall fuel, ReadAllRecovering hash fuel content (InitializeReader 0) = None.
Proof.
  exists toy, hang1. split; [exact toy_range|]. split; [reflexivity|]. split; [|exact hang1_forever].
  exists hang1_bad, hang1_state. apply hang1_cycle. left. reflexivity.
Qed.
Theorem C17_recover_refuted :
  exists hash content, (forall l, 0 <= hash l < 2 ^ 64) /\ forall fuel,
    exists r, ReadChunk hash content (InitializeReader 1) = Some (None, r) /\ r_rec r = kFindChunk /\
      Recover_loop hash fuel content (r_pos r) again r = None.
Proof. exists toy, hang2. split; [exact toy_range|]. exact hang2_forever. Qed.

(** C18: in a valid file, after any navigation, SeekToChunk goes to the first chunk which begins at or after
    [pos], contains the record [pos] (kContaining) or ends after [pos] (kBefore), or to the end of the file if
    there is no such chunk; it fails only if [pos] is after the end of the file. *)
Theorem C18_seek_to_chunk hash qs file ops w pos : (forall l, 0 <= hash l < 2 ^ 64) ->
  valid_file hash 0 qs file -> Forall (navigation (zlen file)) ops -> 0 <= pos < 2 ^ 64 ->
  exists cs r b r', RunOps hash (map (fun o => (o, file)) ops) (InitializeReader 0) = Some (cs, r) /\
    SeekToChunk hash file w pos r = Some (b, r') /\
    b = match seek_target w pos qs with Some _ => true | None => pos <=? zlen file end /\
    (b = true ->
      r_pos r' = match seek_target w pos qs with Some q => q_begin q | None => zlen file end /\
      exists r'', ReadChunk hash file r' = Some (option_map (fun q => mk_chunk hash (q_chunk q)) (seek_target w pos qs), r'')).
Proof. exact (fun H => seek_to_chunk hash H qs file ops w pos). Qed.
(** In an invalid file the search may never end: a chunk header with a matching hash and data size 2^64-40. *)
Theorem C18_seek_refuted w :
  exists hash content r r', (forall l, 0 <= hash l < 2 ^ 64) /\
    (exists c, ReadChunk hash content (InitializeReader 0) = Some (Some c, r)) /\
    PullChunkHeader hash content (set_trunc false r) = Some (true, r') /\
    SeekToChunk hash content w 150 r = None /\
    forall fuel, SeekToChunk_loop hash fuel content w 150 64 false (set_data [] r') = None.
Proof.
  exists toy, hang3, hang3_a, hang3_b. split; [exact toy_range|].
  destruct (hang3_forever w 0) as (A & B & C & _). split; [exact A|]. split; [exact B|]. split; [exact C|].
  intros fuel. apply (hang3_forever w fuel).
Qed.

Print Assumptions C15_only_valid_chunks.
Print Assumptions C16_local.
Print Assumptions C17_progress.
Print Assumptions C17_progress_refuted.
Print Assumptions C17_recover_refuted.
Print Assumptions C18_seek_to_chunk.
Print Assumptions C18_seek_refuted.

(** ** The hypotheses are met *)
Definition ex_chunks : list chunk_spec := [signature_chunk; Chunk 114 2 7 [1;2;3]; Chunk 114 1 2 [5]].
Definition ex_file : list Z := Eval vm_compute in
  match WriteChunks toy (map (mk_chunk toy) ex_chunks) 0 with Some (f, _) => f | None => [] end.
Definition ex_placed : list placed :=
  [Placed 0 64 signature_chunk; Placed 64 107 (Chunk 114 2 7 [1;2;3]); Placed 107 148 (Chunk 114 1 2 [5])].
Lemma ex_valid : valid_file toy 0 ex_placed ex_file.
Proof.
  destruct (WriteChunks_layout toy toy_range ex_chunks 0) as (qs & out & e & W & Q & L & E & _).
  - lia.
  - left; reflexivity.
  - repeat constructor; cbn; lia.
  - vm_compute. reflexivity.
  - assert (OE : out = ex_file /\ e = 148) by (vm_compute in W; injection W as <- <-; vm_compute; auto). destruct OE as [-> ->]. clear W.
    assert (QE : qs = ex_placed).
    { unfold ex_chunks in Q. destruct qs as [|q1 [|q2 [|q3 [|]]]]; try discriminate Q. cbn [map] in Q.
      assert (STEP : forall p q l o E', file_layout toy p (q :: l) o E' -> q_begin q = p /\ exists o1 o2, chunk_layout toy p (q_end q) (q_chunk q) o1 /\ o = o1 ++ o2 /\ file_layout toy (q_end q) l o2 E').
      { intros p q l o E' H. inversion H; subst. cbn. split; [reflexivity|]. eauto. }
      injection Q as Q1 Q2 Q3.
      assert (END : forall p e' k o, chunk_layout toy p e' k o -> 0 <= p -> chunk_boundary p -> chunk_ok k -> e' + 64 <= 2 ^ 64 -> e' = Proof.BlockProof.chunk_end (zlen (k_data k)) (k_nrec k) p).
      { intros p e' k o H P B K B64. destruct (layout_image toy toy_range p e' k o H P B K B64) as (A & _ & _). rewrite <- (cend_mk toy toy_range k p K). exact A. }
      apply STEP in L as [B1 (o1 & o2 & L1 & O1 & L)]. apply STEP in L as [B2 (o3 & o4 & L2 & O2 & L)]. apply STEP in L as [B3 (o5 & o6 & L3 & O3 & L)].
      assert (Z1 : zlen o1 = q_end q1 - 0) by apply L1. assert (Z2 : zlen o3 = q_end q2 - q_end q1) by apply L2. assert (Z3 : zlen o5 = q_end q3 - q_end q2) by apply L3.
      assert (ZO : zlen ex_file = 148) by reflexivity. rewrite O1, O2, O3, !zlen_app in ZO.
      pose proof (zlen_nonneg o1). pose proof (zlen_nonneg o3). pose proof (zlen_nonneg o5). pose proof (zlen_nonneg o6).
      rewrite Q1 in L1. apply END in L1; [|lia|left; reflexivity|unfold chunk_ok; cbn; lia|lia]. replace (Proof.BlockProof.chunk_end (zlen (k_data signature_chunk)) (k_nrec signature_chunk) 0) with 64 in L1 by reflexivity.
      rewrite Q2, L1 in L2. apply END in L2; [|lia|right; vm_compute; intuition discriminate|unfold chunk_ok; cbn; lia|lia]. replace (Proof.BlockProof.chunk_end (zlen (k_data (Chunk 114 2 7 [1;2;3]))) (k_nrec (Chunk 114 2 7 [1;2;3])) 64) with 107 in L2 by reflexivity.
      rewrite Q3, L2 in L3. apply END in L3; [|lia|right; vm_compute; intuition discriminate|unfold chunk_ok; cbn; lia|lia]. replace (Proof.BlockProof.chunk_end (zlen (k_data (Chunk 114 1 2 [5]))) (k_nrec (Chunk 114 1 2 [5])) 107) with 148 in L3 by reflexivity.
      destruct q1, q2, q3; cbn in *; subst; reflexivity. }
    subst qs. constructor.
    + split; [lia|left; reflexivity].
    + repeat constructor; cbn; lia.
    + intros _. reflexivity.
    + exists [], ex_file. split; [reflexivity|]. split; [reflexivity|]. exact L.
    + vm_compute. discriminate.
Qed.

(** Damage the first data byte of the second chunk, at position 104. *)
Definition ex_a : list Z := ztake 104 ex_file.
Definition ex_m : list Z := zslice 104 1 ex_file.
Definition ex_b : list Z := zdrop 105 ex_file.
Example C16_nonvacuous :
  valid_file toy 0 ex_placed (ex_a ++ ex_m ++ ex_b) /\ bytes (ex_a ++ [9] ++ ex_b) /\
  no_forgery toy (ex_a ++ ex_m ++ ex_b) (ex_a ++ [9] ++ ex_b) ex_placed /\ ex_m = [1].
Proof.
  split; [exact ex_valid|]. split; [repeat constructor; lia|]. split; [|reflexivity]. constructor.
  - intros K K0 K1 K2. change (zlen _) with 148 in K2. assert (K = 0) as -> by (apply Z.mod_divide in K1; [destruct K1; lia|lia]). intros b _. subst b. reflexivity.
  - intros q [<-|[<-|[<-|[]]]]; vm_compute; reflexivity.
  - intros q [<-|[<-|[<-|[]]]]; vm_compute; try discriminate; reflexivity.
Qed.
Example C16_run :
  option_map (fun x => map (fun ev => match ev with Got b _ e => (true, b, e) | Skipped b e => (false, b, e) end) (fst x))
    (ReadAllRecovering toy 200 (ex_a ++ [9] ++ ex_b) (InitializeReader 0))
  = Some [(true, 0, 64); (false, 64, 107); (true, 107, 148)].
Proof. vm_compute. reflexivity. Qed.
Example C15_nonvacuous : growing 0 [(OpRead, []); (OpRead, ex_file); (OpSeekTo kBefore 120, ex_file); (OpRecover, ex_file); (OpRead, ex_file)] /\
  option_map (fun x => length (fst x)) (RunOps toy [(OpRead, []); (OpRead, ex_file); (OpSeekTo kBefore 120, ex_file); (OpRecover, ex_file); (OpRead, ex_file)] (InitializeReader 0)) = Some 2%nat.
Proof. split; [|vm_compute; reflexivity]. cbn [growing op_ok]. change (zlen ex_file) with 148. change (zlen (@nil Z)) with 0. assert (bytes ex_file) by (repeat constructor; lia). repeat split; try lia; try assumption; constructor. Qed.
Example C17_nonvacuous : credible toy (ex_a ++ [9] ++ ex_b).
Proof.
  intros K previous next K0 K1 HP HN E.
  assert (ZL : zlen (zslice K 24 (ex_a ++ [9] ++ ex_b)) = 24) by (rewrite E; reflexivity).
  assert (K = 0) as ->.
  { unfold zslice in ZL. rewrite zlen_ztake, zlen_zdrop in ZL. change (zlen (ex_a ++ [9] ++ ex_b)) with 148 in ZL. apply Z.mod_divide in K1; [|lia]. destruct K1 as [z K1]. lia. }
  rewrite <- Proof.FileProof.BlockHeader_bytes in E.
  destruct (Proof.BlockProof.BlockHeader_codec toy toy_range previous next HP HN) as (_ & _ & A & B & _).
  rewrite <- E in A, B. vm_compute in A, B. subst. lia.
Qed.
Example C18_nonvacuous : Forall (navigation (zlen ex_file)) [OpRead; OpSeekTo kAfter 148; OpPull; OpSeekTo kContaining 65] /\
  seek_target kBefore 106 ex_placed = Some (Placed 64 107 (Chunk 114 2 7 [1;2;3])) /\
  seek_target kContaining 66 ex_placed = Some (Placed 107 148 (Chunk 114 1 2 [5])) /\
  seek_target kAfter 108 ex_placed = None.
Proof. split; [|vm_compute; auto]. change (zlen ex_file) with 148. repeat constructor; lia. Qed.
