(** Model of riegeli/base/{byte_fill.h,byte_fill.cc}: a byte repeated many times, as a sequence of blocks. *)
From Verif Require Import Base.Bytes.

Inductive block_kind := ZeroBlock | SmallBlock | LargeBlock.
(** byte_fill.h:432-441: the members of Blocks; all blocks share the same data, which has [bk_data] bytes *)
Record Blocks := { bk_num_blocks : Z; bk_non_last_block_size : Z; bk_last_block_size : Z; bk_data : Z; bk_kind : block_kind; bk_fill : Z }.
(** absl::bit_width() *)
Definition bit_width (x : Z) : Z := if x =? 0 then 0 else Z.log2 x + 1.
Definition kBlockSizeBitsBias : Z := 10.
Definition kMaxSizeForSingleBlock : Z := 2 ^ (kBlockSizeBitsBias + 1).
(** byte_fill.cc:82-113 *)
Definition make_blocks (size fill : Z) : Blocks :=
  if size =? 0 then {| bk_num_blocks := 0; bk_non_last_block_size := 0; bk_last_block_size := 0; bk_data := 0; bk_kind := ZeroBlock; bk_fill := fill |}
  else if fill =? 0 then
    {| bk_num_blocks := (size - 1) / 65536 + 1; bk_non_last_block_size := 65536; bk_last_block_size := u32 (size - 1) mod 65536 + 1;
       bk_data := 65536; bk_kind := ZeroBlock; bk_fill := 0 |}
  else if size <=? 64 then
    {| bk_num_blocks := 1; bk_non_last_block_size := 0; bk_last_block_size := size; bk_data := 64; bk_kind := SmallBlock; bk_fill := fill |}
  else if size <=? kMaxSizeForSingleBlock then
    {| bk_num_blocks := 1; bk_non_last_block_size := size; bk_last_block_size := size; bk_data := size; bk_kind := LargeBlock; bk_fill := fill |}
  else
    let block_size_bits := Z.min ((kBlockSizeBitsBias + bit_width size) / 2) 16 in
    let non_last := 2 ^ block_size_bits in
    {| bk_num_blocks := Z.shiftr (size - 1) block_size_bits + 1; bk_non_last_block_size := non_last;
       bk_last_block_size := Z.land (u32 (size - 1)) (non_last - 1) + 1; bk_data := non_last; bk_kind := LargeBlock; bk_fill := fill |}.
(** byte_fill.h:547-555 Blocks(Blocks&& that): non_last_block_size_ is not among what is moved, so it gets its default value 0 *)
Definition move_blocks (b : Blocks) : Blocks :=
  {| bk_num_blocks := bk_num_blocks b; bk_non_last_block_size := 0; bk_last_block_size := bk_last_block_size b; bk_data := bk_data b;
     bk_kind := bk_kind b; bk_fill := bk_fill b |}.
(** byte_fill.h:427-430 size() of the block whose index counted from the end (from 1) is given *)
Definition block_size (b : Blocks) (block_index_complement : Z) : Z :=
  if block_index_complement =? 1 then bk_last_block_size b else bk_non_last_block_size b.
(** byte_fill.h:362-370, 280-343: iteration from begin() (complement num_blocks_) to end() (complement 0): the blocks as strings;
    [None] if a block is longer than its data *)
Fixpoint blocks_from (n : nat) (b : Blocks) : option (list (list Z)) :=
  match n with
  | O => Some []
  | S n' => let size := block_size b (Z.of_nat n) in
            if bk_data b <? size then None else option_map (cons (repeat (bk_fill b) (Z.to_nat size))) (blocks_from n' b)
  end.
Definition iterate_blocks (b : Blocks) : option (list (list Z)) := blocks_from (Z.to_nat (bk_num_blocks b)) b.
