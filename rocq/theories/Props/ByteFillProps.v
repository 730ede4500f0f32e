(** C44: a ByteFill is a byte repeated; its blocks are pieces of that string. *)
From Verif Require Import Base.Bytes Model.ByteFill Proof.ByteFillProof.

(** The blocks of a ByteFill concatenate to [size] copies of [fill]; they are never empty, and not longer than 64 KiB or than the data which they refer to. *)
Theorem C44_blocks size fill : 0 <= size < 2 ^ 64 ->
  exists bs, iterate_blocks (make_blocks size fill) = Some bs /\ concat bs = repeat fill (Z.to_nat size) /\ Forall (fun s => 1 <= zlen s <= 65536) bs.
Proof. exact (iterate_blocks_ok size fill). Qed.
Print Assumptions C44_blocks.
(** A moved Blocks object has the same blocks if there is at most one... *)
Theorem C44_move_single size fill : 0 <= size < 2 ^ 64 -> (if fill =? 0 then size <= 65536 else size <= 2048) ->
  iterate_blocks (move_blocks (make_blocks size fill)) = iterate_blocks (make_blocks size fill).
Proof.
  intros H S1. destruct (Z.eq_dec size 0) as [->|N]; [reflexivity|]. unfold iterate_blocks, make_blocks. replace (size =? 0) with false by lia. destruct (fill =? 0) eqn:F.
  - unfold move_blocks. cbn [bk_num_blocks]. rewrite Z.div_small by lia. reflexivity.
  - destruct (size <=? 64); [reflexivity|]. change kMaxSizeForSingleBlock with 2048. replace (size <=? 2048) with true by lia. reflexivity.
Qed.
Print Assumptions C44_move_single.
(** ... but a move of more than one block does not keep the data: byte_fill.h:547-555 leaves out a member. *)
Theorem C44_move_refuted : ~ forall size fill, 0 <= size < 2 ^ 64 ->
  exists bs, iterate_blocks (move_blocks (make_blocks size fill)) = Some bs /\ concat bs = repeat fill (Z.to_nat size).
Proof.
  intro H. destruct (H 70000 0 ltac:(lia)) as (bs & E & C). apply (f_equal (fun o => match o with Some x => zlen (concat x) | None => 0 end)) in E.
  rewrite C in E. unfold zlen at 2 in E. rewrite repeat_length in E. assert (L : zlen (concat (match iterate_blocks (move_blocks (make_blocks 70000 0)) with Some x => x | None => [] end)) = 4464) by (vm_compute; reflexivity).
  destruct (iterate_blocks (move_blocks (make_blocks 70000 0))); lia.
Qed.
Print Assumptions C44_move_refuted.
Example C44_three_blocks : option_map (map (@zlen Z)) (iterate_blocks (make_blocks 5000 7)) = Some [2048; 2048; 904].
Proof. vm_compute. reflexivity. Qed.
