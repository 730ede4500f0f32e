From Verif Require Import Base.Bytes Model.ByteFill.

Lemma blocks_from_ok n : forall b, 0 <= bk_non_last_block_size b <= bk_data b -> 0 <= bk_last_block_size b <= bk_data b ->
  exists bs, blocks_from n b = Some bs /\ length bs = n /\
    concat bs = repeat (bk_fill b) (Z.to_nat (if Nat.eqb n 0 then 0 else (Z.of_nat n - 1) * bk_non_last_block_size b + bk_last_block_size b)) /\
    Forall (fun s => zlen s = bk_non_last_block_size b \/ zlen s = bk_last_block_size b) bs.
Proof.
  induction n as [|n IH]; intros b H1 H2; [exists []; repeat split; constructor|].
  destruct (IH b H1 H2) as (bs & E & L & C & F). cbn [blocks_from]. rewrite E. unfold block_size.
  assert (R : forall k, 0 <= k -> zlen (repeat (bk_fill b) (Z.to_nat k)) = k) by (intros k K; unfold zlen; rewrite repeat_length; lia).
  destruct (Z.of_nat (S n) =? 1) eqn:One.
  - replace (bk_data b <? bk_last_block_size b) with false by lia. eexists. split; [reflexivity|]. assert (n = 0%nat) as -> by lia. cbn [length Nat.eqb] in *.
    split; [lia|]. split; [|constructor; [rewrite R; lia|exact F]]. cbn [concat]. rewrite C. change (Z.to_nat 0) with 0%nat. cbn [repeat]. rewrite app_nil_r. reflexivity.
  - replace (bk_data b <? bk_non_last_block_size b) with false by lia. eexists. split; [reflexivity|]. cbn [length].
    split; [lia|]. split; [|constructor; [rewrite R; lia|exact F]]. cbn [concat]. rewrite C, <- repeat_app. f_equal. destruct n; [lia|]. cbn [Nat.eqb]. nia.
Qed.
Lemma make_blocks_sizes size fill : 0 < size < 2 ^ 64 ->
  let b := make_blocks size fill in
  1 <= bk_num_blocks b /\ (bk_num_blocks b - 1) * bk_non_last_block_size b + bk_last_block_size b = size /\
  0 <= bk_non_last_block_size b <= bk_data b /\ 1 <= bk_last_block_size b <= bk_data b /\ bk_data b <= 65536 /\
  (1 < bk_num_blocks b -> 1 <= bk_non_last_block_size b) /\ bk_fill b = fill.
Proof.
  intros H. unfold make_blocks. replace (size =? 0) with false by lia.
  assert (U : forall k, 0 <= k <= 16 -> u32 (size - 1) mod 2 ^ k = (size - 1) mod 2 ^ k).
  { intros k K. unfold u32. rewrite <- (Znumtheory.Zmod_div_mod (2 ^ k) (2 ^ 32)); [reflexivity|apply Z.pow_pos_nonneg; lia|lia|].
    exists (2 ^ (32 - k)). rewrite <- Z.pow_add_r by lia. f_equal. lia. }
  destruct (fill =? 0) eqn:F; cbn [bk_num_blocks bk_non_last_block_size bk_last_block_size bk_data bk_fill].
  - specialize (U 16 ltac:(lia)). change (2 ^ 16) with 65536 in U. rewrite U. pose proof (Z.div_mod (size - 1) 65536). pose proof (Z.mod_pos_bound (size - 1) 65536).
    assert (0 <= (size - 1) / 65536) by (apply Z.div_pos; lia). lia.
  - destruct (size <=? 64) eqn:S1; cbn [bk_num_blocks bk_non_last_block_size bk_last_block_size bk_data bk_fill]; [lia|]. change kMaxSizeForSingleBlock with 2048. destruct (size <=? 2048) eqn:S2; cbn [bk_num_blocks bk_non_last_block_size bk_last_block_size bk_data bk_fill]; [lia|].
    set (k := Z.min ((kBlockSizeBitsBias + bit_width size) / 2) 16).
    assert (K : 0 <= k <= 16). { clear U. unfold k, kBlockSizeBitsBias, bit_width. replace (size =? 0) with false by lia. pose proof (Z.log2_nonneg size).
      assert (0 <= (10 + (Z.log2 size + 1)) / 2) by (apply Z.div_pos; lia). lia. }
    replace (Z.land (u32 (size - 1)) (2 ^ k - 1)) with ((size - 1) mod 2 ^ k) by (rewrite <- (U k K), <- Z.land_ones by lia; f_equal; rewrite Z.ones_equiv; lia).
    clearbody k. rewrite Z.shiftr_div_pow2 by lia. assert (P : 0 < 2 ^ k) by (apply Z.pow_pos_nonneg; lia).
    assert (2 ^ k <= 65536) by (change 65536 with (2 ^ 16); apply Z.pow_le_mono_r; lia).
    pose proof (Z.div_mod (size - 1) (2 ^ k)). pose proof (Z.mod_pos_bound (size - 1) (2 ^ k)). assert (0 <= (size - 1) / 2 ^ k) by (apply Z.div_pos; lia).
    repeat split; try lia.
Qed.
Lemma iterate_blocks_ok size fill : 0 <= size < 2 ^ 64 ->
  exists bs, iterate_blocks (make_blocks size fill) = Some bs /\ concat bs = repeat fill (Z.to_nat size) /\ Forall (fun s => 1 <= zlen s <= 65536) bs.
Proof.
  intros H. destruct (Z.eq_dec size 0) as [->|N]; [exists []; repeat split; constructor|].
  destruct (make_blocks_sizes size fill ltac:(lia)) as (B1 & B2 & B3 & B4 & B5 & B6 & B7). unfold iterate_blocks. set (b := make_blocks size fill) in *.
  destruct (blocks_from_ok (Z.to_nat (bk_num_blocks b)) b B3 ltac:(lia)) as (bs & E & L & C & F). exists bs. split; [exact E|].
  rewrite C, B7. split.
  - f_equal. f_equal. destruct (Nat.eqb _ 0) eqn:Q; [apply Nat.eqb_eq in Q; lia|]. rewrite Z2Nat.id by lia. exact B2.
  - destruct (Z.eq_dec (bk_num_blocks b) 1) as [One|One].
    + (* one block *)
      rewrite One in E. change (Z.to_nat 1) with 1%nat in E. cbn [blocks_from] in E. unfold block_size in E. change (Z.of_nat 1 =? 1) with true in E. cbv iota in E.
      replace (bk_data b <? bk_last_block_size b) with false in E by lia. cbn [option_map] in E. injection E as <-. constructor; [|constructor].
      unfold zlen. rewrite repeat_length. lia.
    + eapply Forall_impl; [|exact F]. cbn. intros s [S1|S1]; lia.
Qed.
