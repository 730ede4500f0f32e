(** Files on which recovery or seeking does not terminate. *)
From Verif Require Import Base.Bytes Model.Endian Model.Block Model.Chunk Model.ChunkWriter Model.ChunkReader.

(** A hash for the examples. *)
Definition toy (l : list Z) : Z := fold_left (fun h b => (h * 31 + b) mod 2 ^ 64) l 7.
Lemma toy_range l : 0 <= toy l < 2 ^ 64.
Proof.
  unfold toy. assert (G : forall l h, 0 <= h < 2 ^ 64 -> 0 <= fold_left (fun h b => (h * 31 + b) mod 2 ^ 64) l h < 2 ^ 64).
  { induction l0 as [|x l0 IH]; intros h Hh; cbn [fold_left]; [assumption|]. apply IH. apply Z.mod_pos_bound. lia. }
  apply G. lia.
Qed.

(** A single block header saying that its chunk began one byte earlier and ends here. *)
Definition hang1 : list Z := BlockHeader toy 1 0.
Definition hang1_bad : reader := Eval vm_compute in
  match ReadChunk toy hang1 (InitializeReader 0) with Some (_, r) => r | None => InitializeReader 0 end.
Definition hang1_state : reader := Eval vm_compute in
  match Recover toy hang1 hang1_bad with Some (_, r) => r | None => InitializeReader 0 end.

Lemma hang1_cycle r : r = InitializeReader 0 \/ r = hang1_state ->
  ReadChunk toy hang1 r = Some (None, hang1_bad) /\ Recover toy hang1 hang1_bad = Some (Some (0, 0), hang1_state).
Proof. intros [->| ->]; vm_compute; auto. Qed.
Lemma hang1_forever fuel : ReadAllRecovering toy fuel hang1 (InitializeReader 0) = None.
Proof.
  assert (G : forall r, r = InitializeReader 0 \/ r = hang1_state -> ReadAllRecovering toy fuel hang1 r = None); [|auto].
  induction fuel as [|fuel IH]; intros r H; cbn [ReadAllRecovering]; [reflexivity|].
  destruct (hang1_cycle r H) as [-> ->]. rewrite IH by auto. reflexivity.
Qed.

(** A block header in the second block, saying that the next chunk begins at the invalid boundary 5. *)
Definition hang2_header : list Z := BlockHeader toy 1 (2 ^ 64 - 65531).
Definition hang2 : list Z := zeros 65536 ++ hang2_header.
Definition hang2_at (p s : Z) (b : list Z) : reader := MkReader s p (zeros 40) [] b true false false kNo 0.

Lemma hang2_len : zlen hang2 = 65560.
Proof. unfold hang2. rewrite zlen_app. unfold zeros. unfold zlen. rewrite repeat_length. reflexivity. Qed.
Lemma hang2_slice : zslice 65536 24 hang2 = hang2_header.
Proof.
  unfold hang2. assert (Z : zlen (zeros 65536) = 65536) by (unfold zlen, zeros; rewrite repeat_length; lia).
  unfold zslice. rewrite zdrop_app_r by lia. rewrite Z. reflexivity.
Qed.
Lemma hang2_cycle fuel p s b : p = 1 \/ p = 5 -> zlen b = 24 ->
  Recover_loop toy (S fuel) hang2 1 find_chunk (hang2_at p s b) = Recover_loop toy fuel hang2 1 find_chunk (hang2_at 5 65560 hang2_header).
Proof.
  intros HP HB. cbn [Recover_loop].
  assert (EU : u64 (r_pos (hang2_at p s b) + RemainingInBlock (r_pos (hang2_at p s b))) = 65536) by (destruct HP as [-> | ->]; reflexivity).
  rewrite EU. cbn [r_pos set_pos]. unfold src_seek. rewrite hang2_len. change (65536 <=? 65560) with true. cbn [negb].
  unfold ReadBlockHeader. cbn [r_spos set_spos]. change (RemainingInBlockHeader 65536) with 24. unfold src_read. rewrite hang2_len. change (65536 + 24 <=? 65560) with true. cbv iota.
  rewrite hang2_slice. change (BlockHeaderSize - 24) with 0.
  assert (BL : blit 0 hang2_header (r_block (set_spos 65536 (set_pos 65536 (hang2_at p s b)))) = hang2_header).
  { unfold blit. rewrite ztake_nonpos, Z.add_0_l, zdrop_all by (cbn [r_block set_spos set_pos hang2_at]; try rewrite HB; try lia; vm_compute; discriminate). apply app_nil_r. }
  rewrite BL. cbn [negb r_block set_spos set_block]. 
  change (bh_computed_header_hash toy hang2_header =? bh_stored_header_hash hang2_header) with true. cbn [negb].
  cbn [r_block set_spos set_block]. change (bh_previous_chunk hang2_header =? 0) with false. cbv iota.
  change (u64 (r_pos (set_spos (65536 + 24) (set_block hang2_header (set_spos 65536 (set_pos 65536 (hang2_at p s b))))) + bh_next_chunk hang2_header)) with 5.
  cbn [r_pos set_pos]. change (IsPossibleChunkBoundary 5) with false. cbn [negb]. reflexivity.
Qed.
Lemma hang2_forever fuel : exists r, ReadChunk toy hang2 (InitializeReader 1) = Some (None, r) /\ r_rec r = kFindChunk /\
  Recover_loop toy fuel hang2 (r_pos r) again r = None.
Proof.
  eexists. split; [reflexivity|]. split; [reflexivity|].
  destruct fuel as [|fuel]; [reflexivity|]. cbn [Recover_loop r_rec InitializeReader]. change (IsPossibleChunkBoundary 1) with false. cbv iota. cbn [fail_rec snd r_rec set_failed set_rec r_recpos r_pos].
  change (Recover_loop toy fuel hang2 1 find_chunk (hang2_at 1 1 (zeros 24)) = None).
  destruct fuel as [|fuel]; [reflexivity|]. rewrite hang2_cycle by auto.
  induction fuel as [|fuel IH]; [reflexivity|]. rewrite hang2_cycle; [exact IH|auto|reflexivity].
Qed.

(** A chunk header with data size 2^64 - 40, whose chunk "ends" where it begins. *)
Definition hang3_header : list Z :=
  let body := WriteLittleEndian 8 (2 ^ 64 - 40) ++ WriteLittleEndian 8 0 ++ WriteLittleEndian 8 kSimple ++ WriteLittleEndian 8 0 in
  WriteLittleEndian 8 (toy body) ++ body.
Definition hang3 : list Z :=
  BlockHeader toy 0 64 ++ ChunkHeader toy [] kFileSignature 0 0 ++ hang3_header ++ zeros 96.
Definition hang3_a : reader := Eval vm_compute in
  match ReadChunk toy hang3 (InitializeReader 0) with Some (_, r) => r | None => InitializeReader 0 end.
Definition hang3_b : reader := Eval vm_compute in
  match PullChunkHeader toy hang3 hang3_a with Some (_, r) => r | None => InitializeReader 0 end.
Lemma hang3_cycle fuel w :
  SeekToChunk_loop toy (S fuel) hang3 w 150 64 false hang3_b = SeekToChunk_loop toy fuel hang3 w 150 64 false hang3_b.
Proof.
  assert (R : ReadChunkHeader toy hang3 (set_spos 64 (set_pos 64 hang3_b)) = Some (true, hang3_b)) by (vm_compute; reflexivity).
  assert (E : SeekToChunk_loop toy (S fuel) hang3 w 150 64 false hang3_b =
     match ReadChunkHeader toy hang3 (set_spos 64 (set_pos 64 hang3_b)) with
     | None => None
     | Some (false, r) => if negb (r_ok r) then Some (false, r) else Some (FailSeeking (set_trunc false r))
     | Some (true, r) =>
         let ce := ChunkEnd (ch_data_size (r_header r)) (ch_num_records (r_header r)) (r_pos r) in
         match w with
         | kContaining => if 150 <? u64 (r_pos r + ch_num_records (r_header r)) then Some (true, r) else SeekToChunk_loop toy fuel hang3 w 150 ce false r
         | kBefore => if 150 <? ce then Some (true, r) else SeekToChunk_loop toy fuel hang3 w 150 ce false r
         | kAfter => SeekToChunk_loop toy fuel hang3 w 150 ce false r
         end
     end) by (destruct w; reflexivity).
  rewrite E, R. destruct w; reflexivity.
Qed.
Lemma hang3_forever w fuel :
  (exists c, ReadChunk toy hang3 (InitializeReader 0) = Some (Some c, hang3_a)) /\
  PullChunkHeader toy hang3 (set_trunc false hang3_a) = Some (true, hang3_b) /\
  SeekToChunk toy hang3 w 150 hang3_a = None /\
  SeekToChunk_loop toy fuel hang3 w 150 64 false (set_data [] hang3_b) = None.
Proof.
  split; [eexists; vm_compute; reflexivity|]. split; [vm_compute; reflexivity|].
  assert (G : forall f, SeekToChunk_loop toy f hang3 w 150 64 false (set_data [] hang3_b) = None).
  { intros f. change (set_data [] hang3_b) with hang3_b. induction f as [|f IH]; [reflexivity|]. rewrite hang3_cycle. exact IH. }
  split; [|apply G]. destruct w; vm_compute; reflexivity.
Qed.
