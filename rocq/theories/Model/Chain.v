(** Model of riegeli/base/{chain_base.h,chain_details.h,chain.cc}: a byte string stored as reference counted blocks which may be shared between chains.

    [None] is a failed RIEGELI_ASSERT or RIEGELI_CHECK, or a write outside the memory of a block.
    The memory is a heap of blocks.  A block which is freed has a zero reference count and no bytes left, so that using it afterwards changes results.
    Not modelled: where block pointers and block offsets are placed in their array (only whether the array is allocated), absl::Cord, and concurrent use from several threads.
    An AppendBuffer() or PrependBuffer() and the memcpy() of its caller to the buffer are one step: [fill n] are the bytes which the caller puts in a buffer of length [n]. *)
From Verif Require Import Base.Bytes Model.BufferSizer.

Notation "'let*' p ':=' e 'in' k" := (match e with Some p => k | None => None end) (at level 200, p pattern, k at level 200).
Definition check {A} (b : bool) (k : option A) : option A := if b then k else None.

(** chain_base.h:607-700 Chain::RawBlock: the reference count, the capacity ([None] for an external block), the space before the data, the data ([substr_]). *)
Record block := { rc : Z; cap : option Z; sb : Z; dat : list Z }.
(** [wraps]: the external blocks whose external object is a Chain::Block (chain_details.h:827-859), with the block they refer to and the offset of their data in it. *)
Record heap := { nxt : Z; blk : Z -> block; wraps : list (Z * (Z * Z)) }.
(** chain_base.h:423-470, 570-590 Chain: [size_], the short data, the block pointers from [begin_] to [end_], the block offsets ([None] if [has_here()]). *)
Record chain := { csize : Z; cshort : list Z; cblocks : list Z; coffs : option (list Z) }.
(** chain_base.h:80-166 Chain::Options *)
Record options := { size_hint : option Z; min_block_size : Z; max_block_size : Z }.
(** What depends on the platform: kInternalAllocatedOffset(), and the capacity which the allocator gives to the n-th block when m bytes are requested (new_aligned.h SizeReturningNewAligned()). *)
Record env := { offset : Z; granted : Z -> Z -> Z }.

(** chain_base.h:77 2 * sizeof(BlockPtr), 442; buffering.h:32-33, 41; chain_base.h:610 *)
Definition kMaxShortDataSize : Z := 16.
Definition kAllocationCost : Z := 512.
Definition kDefaultMinBlockSize : Z := 512.
Definition kDefaultMaxBlockSize : Z := 65536.
Definition kMaxBytesToCopy : Z := 511.
Definition kMaxCapacity : Z := 2 ^ 63 - 1.
Definition SIZE_MAX : Z := 2 ^ 64 - 1.

Definition upd {A} (f : Z -> A) (k : Z) (v : A) (x : Z) : A := if x =? k then v else f x.
Definition set_blk (h : heap) (b : Z) (v : block) : heap := {| nxt := nxt h; blk := upd (blk h) b v; wraps := wraps h |}.
Definition with_rc (v : block) (r : Z) : block := {| rc := r; cap := cap v; sb := sb v; dat := dat v |}.
Definition with_dat (v : block) (s : Z) (d : list Z) : block := {| rc := rc v; cap := cap v; sb := s; dat := d |}.

Definition data (h : heap) (b : Z) : list Z := dat (blk h b).
Definition size (h : heap) (b : Z) : Z := zlen (data h b).
Definition is_empty (h : heap) (b : Z) : bool := size h b =? 0.
(** chain_base.h is_mutable(): is_internal() && has_unique_owner(); chain_details.h:563 *)
Definition is_mutable (h : heap) (b : Z) : bool := match cap (blk h b) with Some _ => rc (blk h b) =? 1 | None => false end.
(** chain_details.h:567 *)
Definition capacity (h : heap) (b : Z) : Z := match cap (blk h b) with Some k => k | None => 0 end.
(** chain.cc:148-160 *)
Definition space_before (h : heap) (b : Z) : Z := sb (blk h b).
Definition space_after (h : heap) (b : Z) : Z := capacity h b - sb (blk h b) - size h b.
(** chain.cc:162-175 tiny() *)
Definition tiny (h : heap) (b : Z) : bool := size h b <? kDefaultMinBlockSize.
(** buffering.h:69-74 *)
Definition Wasteful (allocated used : Z) : bool :=
  if allocated <? used then false else let unused := allocated - used in if unused <=? kDefaultMinBlockSize then false else used <? unused - kDefaultMinBlockSize.
(** chain.cc:177-191 wasteful(extra_size) *)
Definition wasteful (E : env) (h : heap) (b extra : Z) : bool :=
  match cap (blk h b) with Some k => Wasteful (offset E + k) (size h b + extra) | None => false end.
(** chain.cc:229-237 *)
Definition can_append (h : heap) (b length : Z) : bool := is_mutable h b && (length <=? (if is_empty h b then capacity h b else space_after h b)).
Definition can_prepend (h : heap) (b length : Z) : bool := is_mutable h b && (length <=? (if is_empty h b then capacity h b else space_before h b)).

(** chain.cc:118-137 NewInternal(), RawBlock::RawBlock(raw_capacity) *)
Definition NewInternal (E : env) (h : heap) (min_capacity : Z) : option (Z * heap) :=
  check (0 <? min_capacity) (let k := granted E (nxt h) min_capacity in check (k <=? kMaxCapacity)
  (Some (nxt h, {| nxt := nxt h + 1; blk := upd (blk h) (nxt h) {| rc := 1; cap := Some k; sb := 0; dat := [] |}; wraps := wraps h |}))).
(** chain_details.h:465-535 a new external block with its own object *)
Definition NewExternal (h : heap) (d : list Z) : Z * heap :=
  (nxt h, {| nxt := nxt h + 1; blk := upd (blk h) (nxt h) {| rc := 1; cap := None; sb := 0; dat := d |}; wraps := wraps h |}).
(** chain_details.h:827-830 with T = Block: a new external block whose object is a Block referring to [b] and whose data are a part of the data of [b]; takes over a reference to [b] *)
Definition NewWrapper (h : heap) (b off len : Z) : Z * heap :=
  (nxt h, {| nxt := nxt h + 1; blk := upd (blk h) (nxt h) {| rc := 1; cap := None; sb := 0; dat := ztake len (zdrop off (data h b)) |}; wraps := (nxt h, (b, off)) :: wraps h |}).

(** chain_details.h:545-549 Ref() *)
Definition Ref (h : heap) (b : Z) : heap := set_blk h b (with_rc (blk h b) (rc (blk h b) + 1)).
Definition find_wrap (h : heap) (b : Z) : option (Z * Z) := match find (fun p => fst p =? b) (wraps h) with Some (_, t) => Some t | None => None end.
(** chain_details.h:551-561 Unref(), 483-490 DeleteBlock(): the object of a deleted external block is destroyed, and a Block drops its reference *)
Fixpoint unref_fuel (fuel : nat) (h : heap) (b : Z) : heap :=
  match fuel with
  | O => h
  | S fuel =>
    if rc (blk h b) =? 1 then
      let freed := {| rc := 0; cap := None; sb := 0; dat := [] |} in
      match find_wrap h b with
      | Some (i, _) => unref_fuel fuel {| nxt := nxt h; blk := upd (blk h) b freed; wraps := filter (fun p => negb (fst p =? b)) (wraps h) |} i
      | None => set_blk h b freed
      end
    else set_blk h b (with_rc (blk h b) (rc (blk h b) - 1))
  end.
Definition Unref (h : heap) (b : Z) : heap := unref_fuel (S (length (wraps h))) h b.
Definition UnrefBlocks (h : heap) (bs : list Z) : heap := fold_left Unref bs h.

(** chain.cc:239-249 RawBlock::AppendBuffer(): returns the length *)
Definition Block_AppendBuffer (h : heap) (b max_length : Z) (fill : Z -> list Z) : option (Z * heap) :=
  check (is_mutable h b) (let s := if is_empty h b then 0 else sb (blk h b) in
  let length := Z.min (capacity h b - s - size h b) max_length in
  Some (length, set_blk h b (with_dat (blk h b) s (data h b ++ fill length)))).
(** chain.cc:251-262 RawBlock::PrependBuffer() *)
Definition Block_PrependBuffer (h : heap) (b max_length : Z) (fill : Z -> list Z) : option (Z * heap) :=
  check (is_mutable h b) (let s := if is_empty h b then capacity h b else sb (blk h b) in
  let length := Z.min s max_length in
  Some (length, set_blk h b (with_dat (blk h b) (s - length) (fill length ++ data h b)))).
(** chain.cc:274-287 AppendWithExplicitSizeToCopy(): writes [size_to_copy] bytes, of which the first ones become data *)
Definition Block_AppendExplicit (h : heap) (b : Z) (src : list Z) (size_to_copy : Z) : option heap :=
  check (zlen src <=? size_to_copy) (check (can_append h b size_to_copy) (check (sb (blk h b) + size h b + size_to_copy <=? capacity h b)
  (Some (set_blk h b (with_dat (blk h b) (sb (blk h b)) (data h b ++ src)))))).
(** chain.cc:264-272 RawBlock::Append() *)
Definition Block_Append (h : heap) (b : Z) (src : list Z) : option heap :=
  let h := if is_empty h b then set_blk h b (with_dat (blk h b) 0 (data h b)) else h in Block_AppendExplicit h b src (zlen src).
(** chain.cc:289-298 RawBlock::Prepend() *)
Definition Block_Prepend (h : heap) (b : Z) (src : list Z) : option heap :=
  check (can_prepend h b (zlen src)) (let s := if is_empty h b then capacity h b else sb (blk h b) in check (0 <=? s - zlen src)
  (Some (set_blk h b (with_dat (blk h b) (s - zlen src) (src ++ data h b))))).
(** chain.cc:139-146 RawBlock::Copy() *)
Definition Block_Copy (E : env) (h : heap) (b : Z) : option (Z * heap) :=
  let* (n, h) := NewInternal E h (size h b) in let* h := Block_Append h n (data h b) in check (negb (wasteful E h n 0)) (Some (n, h)).
(** chain_details.h:607-637 TryClear(), TryRemoveSuffix(), TryRemovePrefix() *)
Definition TryClear (h : heap) (b : Z) : bool * heap := if is_mutable h b then (true, set_blk h b (with_dat (blk h b) (sb (blk h b)) [])) else (false, h).
Definition TryRemoveSuffix (h : heap) (b length : Z) : bool * heap :=
  if is_mutable h b then (true, set_blk h b (with_dat (blk h b) (sb (blk h b)) (ztake (size h b - length) (data h b)))) else (false, h).
Definition TryRemovePrefix (h : heap) (b length : Z) : bool * heap :=
  if is_mutable h b then (true, set_blk h b (with_dat (blk h b) (sb (blk h b) + length) (zdrop length (data h b)))) else (false, h).

(** chain_details.h:1026-1028 *)
Definition short_data (c : chain) : list Z := ztake (csize c) (cshort c).
Definition front (c : chain) : Z := hd 0 (cblocks c).
Definition back (c : chain) : Z := last (cblocks c) 0.
Definition count (c : chain) : Z := zlen (cblocks c).
Definition with_size (c : chain) (s : Z) : chain := {| csize := s; cshort := cshort c; cblocks := cblocks c; coffs := coffs c |}.
Definition with_blocks (c : chain) (bs : list Z) (o : option (list Z)) : chain := {| csize := csize c; cshort := []; cblocks := bs; coffs := o |}.
Definition empty_chain : chain := {| csize := 0; cshort := []; cblocks := []; coffs := None |}.

(** The offset of each block, from the offset [o] of the first one; size_t wraps around *)
Fixpoint offs_from (h : heap) (o : Z) (bs : list Z) : list Z := match bs with [] => [] | b :: bs => o :: offs_from h (u64 (o + size h b)) bs end.
(** chain.cc:907-1090 ReserveBack(), ReserveFront() and their slow variants: the array is allocated, with offsets, if more than 2 block pointers are needed *)
Definition Reserve (h : heap) (c : chain) (extra : Z) : option (list Z) :=
  match coffs c with Some l => Some l | None => if 2 <? count c + extra then Some (offs_from h 0 (cblocks c)) else None end.
(** chain.cc:803-813 PushBack(), 815-826 PushFront() *)
Definition PushBack (h : heap) (c : chain) (b : Z) : chain :=
  with_blocks c (cblocks c ++ [b]) (match Reserve h c 1 with Some l => Some (l ++ [match cblocks c with [] => 0 | _ => u64 (last l 0 + size h (back c)) end]) | None => None end).
Definition PushFront (h : heap) (c : chain) (b : Z) : chain :=
  with_blocks c (b :: cblocks c) (match Reserve h c 1 with Some l => Some (match cblocks c with [] => 0 | _ => u64 (hd 0 l - size h b) end :: l) | None => None end).
(** chain.cc:828-833 PopBack(), 835-849 PopFront(); the caller drops the returned reference *)
Definition PopBack (c : chain) : chain := with_blocks c (removelast (cblocks c)) (option_map (@removelast Z) (coffs c)).
Definition PopFront (c : chain) : chain := with_blocks c (tl (cblocks c)) (option_map (@tl Z) (coffs c)).
(** chain.cc:772-778 SetBack(), 787-791 SetFrontSameSize(): also drop the old block, unless the caller keeps it (then it uses the variants which do not) *)
Definition SetBack_keep (c : chain) (b : Z) : chain := with_blocks c (removelast (cblocks c) ++ [b]) (coffs c).
Definition SetFrontSameSize_keep (c : chain) (b : Z) : chain := with_blocks c (b :: tl (cblocks c)) (coffs c).
Definition SetBack (h : heap) (c : chain) (b : Z) : heap * chain := (Unref h (back c), SetBack_keep c b).
Definition SetFrontSameSize (h : heap) (c : chain) (b : Z) : heap * chain := (Unref h (front c), SetFrontSameSize_keep c b).
(** chain.cc:793-801 RefreshFront() *)
Definition RefreshFront (h : heap) (c : chain) : chain :=
  with_blocks c (cblocks c) (match coffs c with
    | Some (o :: o' :: l) => Some (u64 (o' - size h (front c)) :: o' :: l)
    | Some (o :: l) => Some (0 :: l)
    | other => other end).
(** chain.cc:780-785 SetFront() *)
Definition SetFront (h : heap) (c : chain) (b : Z) : heap * chain := (Unref h (front c), RefreshFront h (SetFrontSameSize_keep c b)).
(** chain.cc:851-886 AppendBlocks(), 888-922 PrependBlocks() *)
Definition AppendBlocks (share : bool) (h : heap) (c : chain) (bs : list Z) : heap * chain :=
  match bs with
  | [] => (h, c)
  | _ =>
    let o := match Reserve h c (zlen bs) with
             | Some l => Some (l ++ offs_from h (match cblocks c with [] => 0 | _ => u64 (last l 0 + size h (back c)) end) bs)
             | None => None end in
    (if share then fold_left Ref bs h else h, with_blocks c (cblocks c ++ bs) o)
  end.
(** the offsets of blocks in front of a block at offset [o], and the new first offset *)
Fixpoint offs_before (h : heap) (o : Z) (bs : list Z) : Z * list Z :=
  match bs with [] => (o, []) | b :: bs => let '(o, l) := offs_before h o bs in let o := u64 (o - size h b) in (o, o :: l) end.
Definition PrependBlocks (share : bool) (h : heap) (c : chain) (bs : list Z) : heap * chain :=
  match bs with
  | [] => (h, c)
  | _ =>
    let o := match Reserve h c (zlen bs) with
             | Some l => Some (match cblocks c with [] => snd (offs_before h 0 (removelast bs)) ++ [0] | _ => snd (offs_before h (hd 0 l) bs) end ++ l)
             | None => None end in
    (if share then fold_left Ref bs h else h, with_blocks c (bs ++ cblocks c) o)
  end.

(** chain.cc:1098-1115 NewBlockCapacity(); buffering.h:47-66 *)
Definition NewBlockCapacity (c : chain) (replaced_length min_length recommended_length : Z) (opt : options) : option Z :=
  check (replaced_length <=? csize c) (check (min_length <=? kMaxCapacity - replaced_length)
  (Some (replaced_length + UnsignedClamp (Z.max (ApplySizeHint (Z.max (csize c) (SaturatingSub (min_block_size opt) replaced_length)) (size_hint opt) (csize c)) recommended_length)
                             min_length (SaturatingSub (max_block_size opt) replaced_length)))).

Section Ops.
Context (E : env).

Definition hint_small (opt : options) : bool := match size_hint opt with None => true | Some s => s <=? kMaxShortDataSize end.

(** chain.cc:1117-1198 AppendBuffer() *)
Definition AppendBuffer (h : heap) (c : chain) (min_length recommended_length max_length : Z) (opt : options) (fill : Z -> list Z) : option (Z * heap * chain) :=
  let finish (h : heap) (c : chain) : option (Z * heap * chain) :=
    let* (n, h) := Block_AppendBuffer h (back c) (Z.min max_length (SIZE_MAX - csize c)) fill in
    check (min_length <=? n) (Some (n, h, with_size c (csize c + n))) in
  check (min_length <=? max_length) (check (min_length <=? SIZE_MAX - csize c)
  match cblocks c with
  | [] =>
    check (csize c <=? kMaxShortDataSize)
    (if (min_length <=? kMaxShortDataSize - csize c) && (recommended_length <=? kMaxShortDataSize - csize c) && hint_small opt then
      let n := Z.min max_length (kMaxShortDataSize - csize c) in
      Some (n, h, {| csize := csize c + n; cshort := short_data c ++ fill n; cblocks := []; coffs := None |})
    else if (min_length <=? kMaxShortDataSize - csize c) && (min_length =? 0) then Some (0, h, c)
    else if kMaxCapacity - csize c <? min_length then
      let* (b, h) := NewInternal E h kMaxShortDataSize in
      let* h := Block_AppendExplicit h b (short_data c) kMaxShortDataSize in
      let c := PushBack h c b in
      let* k := NewBlockCapacity c 0 min_length recommended_length opt in
      let* (b, h) := NewInternal E h k in finish h (PushBack h c b)
    else
      let* k := NewBlockCapacity c (csize c) (Z.max min_length (kMaxShortDataSize - csize c)) recommended_length opt in
      let* (b, h) := NewInternal E h k in
      let* h := Block_AppendExplicit h b (short_data c) kMaxShortDataSize in finish h (PushBack h c b))
  | _ =>
    if can_append h (back c) min_length then finish h c
    else if min_length =? 0 then Some (0, h, c)
    else if tiny h (back c) && (min_length <=? kMaxCapacity - size h (back c)) then
      let* k := NewBlockCapacity c (size h (back c)) min_length recommended_length opt in
      let* (b, h) := NewInternal E h k in
      let* h := Block_Append h b (data h (back c)) in
      let '(h, c) := SetBack h c b in finish h c
    else
      let fresh (h : heap) (c : chain) : option (Z * heap * chain) :=
        let* k := NewBlockCapacity c 0 min_length recommended_length opt in
        let* (b, h) := NewInternal E h k in finish h (PushBack h c b) in
      if wasteful E h (back c) 0 then
        let* (n, h) := Block_Copy E h (back c) in
        let l := back c in let c := SetBack_keep c n in
        let '(cleared, h) := TryClear h l in
        if cleared && can_append h l min_length then finish h (PushBack h c l)
        else fresh (Unref h l) c
      else fresh h c
  end).
(** chain.cc:1200-1282 PrependBuffer() *)
Definition PrependBuffer (h : heap) (c : chain) (min_length recommended_length max_length : Z) (opt : options) (fill : Z -> list Z) : option (Z * heap * chain) :=
  let finish (h : heap) (c : chain) : option (Z * heap * chain) :=
    let* (n, h) := Block_PrependBuffer h (front c) (Z.min max_length (SIZE_MAX - csize c)) fill in
    check (min_length <=? n) (Some (n, h, with_size (RefreshFront h c) (csize c + n))) in
  check (min_length <=? max_length) (check (min_length <=? SIZE_MAX - csize c)
  match cblocks c with
  | [] =>
    check (csize c <=? kMaxShortDataSize)
    (if (min_length <=? kMaxShortDataSize - csize c) && (recommended_length <=? kMaxShortDataSize - csize c) && hint_small opt then
      let n := Z.min max_length (kMaxShortDataSize - csize c) in
      Some (n, h, {| csize := csize c + n; cshort := fill n ++ short_data c; cblocks := []; coffs := None |})
    else if (min_length <=? kMaxShortDataSize - csize c) && (min_length =? 0) then Some (0, h, c)
    else if kMaxCapacity - csize c <? min_length then
      let* (b, h) := NewInternal E h kMaxShortDataSize in
      let* h := Block_AppendExplicit h b (short_data c) kMaxShortDataSize in
      let c := PushFront h c b in
      let* k := NewBlockCapacity c 0 min_length recommended_length opt in
      let* (b, h) := NewInternal E h k in finish h (PushFront h c b)
    else
      let* k := NewBlockCapacity c (csize c) min_length recommended_length opt in
      let* (b, h) := NewInternal E h k in
      let* h := Block_Prepend h b (short_data c) in finish h (PushFront h c b))
  | _ =>
    if can_prepend h (front c) min_length then finish h c
    else if min_length =? 0 then Some (0, h, c)
    else if tiny h (front c) && (min_length <=? kMaxCapacity - size h (front c)) then
      let* k := NewBlockCapacity c (size h (front c)) min_length recommended_length opt in
      let* (b, h) := NewInternal E h k in
      let* h := Block_Prepend h b (data h (front c)) in
      let '(h, c) := SetFront h c b in finish h c
    else
      let fresh (h : heap) (c : chain) : option (Z * heap * chain) :=
        let* k := NewBlockCapacity c 0 min_length recommended_length opt in
        let* (b, h) := NewInternal E h k in finish h (PushFront h c b) in
      if wasteful E h (front c) 0 then
        let* (n, h) := Block_Copy E h (front c) in
        let l := front c in let c := SetFrontSameSize_keep c n in
        let '(cleared, h) := TryClear h l in
        if cleared && can_prepend h l min_length then finish h (PushFront h c l)
        else fresh (Unref h l) c
      else fresh h c
  end).

(** chain.cc:1284-1291 Append(BytesRef), 1572-1580 Prepend(BytesRef) *)
Fixpoint append_loop (fuel : nat) (h : heap) (c : chain) (src : list Z) (opt : options) : option (heap * chain) :=
  match src, fuel with
  | [], _ => Some (h, c)
  | _, O => None
  | _, S fuel => let* (n, h, c) := AppendBuffer h c 1 (zlen src) (zlen src) opt (fun n => ztake n src) in append_loop fuel h c (zdrop n src) opt
  end.
Definition Append (h : heap) (c : chain) (src : list Z) (opt : options) : option (heap * chain) := append_loop (length src) h c src opt.
Fixpoint prepend_loop (fuel : nat) (h : heap) (c : chain) (src : list Z) (opt : options) : option (heap * chain) :=
  match src, fuel with
  | [], _ => Some (h, c)
  | _, O => None
  | _, S fuel => let* (n, h, c) := PrependBuffer h c 1 (zlen src) (zlen src) opt (fun n => zdrop (zlen src - n) src) in prepend_loop fuel h c (ztake (zlen src - n) src) opt
  end.
Definition Prepend (h : heap) (c : chain) (src : list Z) (opt : options) : option (heap * chain) := prepend_loop (length src) h c src opt.

(** chain.cc:1311-1424 AppendChain(), up to the appending of the remaining blocks.  [f] is the first of the [n] blocks of [src]; the flag tells that it was handled here and is to be skipped. *)
Definition AppendChain_merge (h : heap) (c : chain) (f n : Z) (opt : options) : option (heap * chain * bool) :=
  if is_empty h (back c) && is_empty h f then Some (Unref h (back c), PopBack c, true)
  else if can_append h (back c) (size h f) && ((n =? 1) || negb (wasteful E h (back c) (size h f))) then
    let* h := Block_Append h (back c) (data h f) in Some (h, c, true)
  else
    check (size h f <=? kMaxCapacity - size h (back c))
    (let* k := if n =? 1 then NewBlockCapacity c (size h (back c)) (size h f) 0 opt else Some (size h (back c) + size h f) in
    let* (b, h) := NewInternal E h k in
    let* h := Block_Append h b (data h (back c)) in
    let* h := Block_Append h b (data h f) in
    let '(h, c) := SetBack h c b in Some (h, c, true)).
Definition AppendChain_first (h : heap) (c : chain) (f n : Z) (opt : options) : option (heap * chain * bool) :=
  match cblocks c with
  | [] =>
    if tiny h f || ((1 <? n) && wasteful E h f 0) then
      if negb (csize c =? 0) || negb (is_empty h f) then
        check (size h f <=? kMaxCapacity - csize c)
        (let* k := if n =? 1 then NewBlockCapacity c (csize c) (Z.max (size h f) (kMaxShortDataSize - csize c)) 0 opt else Some (Z.max (csize c + size h f) kMaxShortDataSize) in
        let* (b, h) := NewInternal E h k in
        let* h := Block_AppendExplicit h b (short_data c) kMaxShortDataSize in
        let* h := Block_Append h b (data h f) in
        Some (h, PushBack h c b, true))
      else Some (h, c, true)
    else if negb (csize c =? 0) then
      let* (b, h) := NewInternal E h kMaxShortDataSize in
      let* h := Block_AppendExplicit h b (short_data c) kMaxShortDataSize in
      Some (h, PushBack h c b, false)
    else Some (h, c, false)
  | _ =>
    if tiny h (back c) && tiny h f then AppendChain_merge h c f n opt
    else if is_empty h (back c) then
      if (1 <? n) && wasteful E h f 0 then AppendChain_merge h c f n opt
      else Some (Unref h (back c), PopBack c, false)
    else if wasteful E h (back c) 0 then
      if (1 <? n) && (is_empty h f || wasteful E h f 0) then AppendChain_merge h c f n opt
      else if can_append h (back c) (size h f) && ((n =? 1) || negb (wasteful E h (back c) (size h f))) && (size h f <=? kAllocationCost + size h (back c)) then
        let* h := Block_Append h (back c) (data h f) in Some (h, c, true)
      else
        let* (b, h) := Block_Copy E h (back c) in
        let '(h, c) := SetBack h c b in Some (h, c, false)
    else if 1 <? n then
      if is_empty h f then Some (h, c, true)
      else if wasteful E h f 0 then
        if can_append h (back c) (size h f) && negb (wasteful E h (back c) (size h f)) then
          let* h := Block_Append h (back c) (data h f) in Some (h, c, true)
        else
          let* (b, h) := Block_Copy E h f in Some (h, PushBack h c b, true)
      else Some (h, c, false)
    else Some (h, c, false)
  end.
(** chain.cc:1293-1429 Append(const Chain&) ([share]), Append(Chain&&): also returns [src] as the call leaves it *)
Definition AppendChain (share : bool) (h : heap) (c src : chain) (opt : options) : option (heap * chain * chain) :=
  match cblocks src with
  | [] => let* (h, c) := Append h c (short_data src) opt in Some (h, c, src)
  | f :: rest =>
    check (csize src <=? SIZE_MAX - csize c)
    (let* r := AppendChain_first h c f (count src) opt in
    let '(h, c, skip) := r in
    let h := if skip && negb share then Unref h f else h in
    let c := with_size c (csize c + csize src) in
    let '(h, c) := AppendBlocks share h c (if skip then rest else f :: rest) in
    Some (h, c, if share then src else with_size (with_blocks src [] (match coffs src with Some _ => Some [] | None => None end)) 0))
  end.

(** chain.cc:1590-1704 PrependChain(), up to the prepending of the remaining blocks.  [f] is the last of the [n] blocks of [src]. *)
Definition PrependChain_merge (h : heap) (c : chain) (f n : Z) (opt : options) : option (heap * chain * bool) :=
  if is_empty h f && is_empty h (front c) then Some (Unref h (front c), PopFront c, true)
  else if can_prepend h (front c) (size h f) && ((n =? 1) || negb (wasteful E h (front c) (size h f))) then
    let* h := Block_Prepend h (front c) (data h f) in Some (h, RefreshFront h c, true)
  else
    check (size h f <=? kMaxCapacity - size h (front c))
    (let* k := if n =? 1 then NewBlockCapacity c (size h (front c)) (size h f) 0 opt else Some (size h (front c) + size h f) in
    let* (b, h) := NewInternal E h k in
    let* h := Block_Prepend h b (data h (front c)) in
    let* h := Block_Prepend h b (data h f) in
    let '(h, c) := SetFront h c b in Some (h, c, true)).
Definition PrependChain_last (h : heap) (c : chain) (f n : Z) (opt : options) : option (heap * chain * bool) :=
  match cblocks c with
  | [] =>
    if tiny h f || ((1 <? n) && wasteful E h f 0) then
      if negb (csize c =? 0) || negb (is_empty h f) then
        check (size h f <=? kMaxCapacity - csize c)
        (let* k := if n =? 1 then NewBlockCapacity c (csize c) (size h f) 0 opt else Some (csize c + size h f) in
        let* (b, h) := NewInternal E h k in
        let* h := Block_Prepend h b (short_data c) in
        let* h := Block_Prepend h b (data h f) in
        Some (h, PushFront h c b, true))
      else Some (h, c, true)
    else if negb (csize c =? 0) then
      let* (b, h) := NewInternal E h kMaxShortDataSize in
      let* h := Block_AppendExplicit h b (short_data c) kMaxShortDataSize in
      Some (h, PushFront h c b, false)
    else Some (h, c, false)
  | _ =>
    if tiny h (front c) && tiny h f then PrependChain_merge h c f n opt
    else if is_empty h (front c) then
      if (1 <? n) && wasteful E h f 0 then PrependChain_merge h c f n opt
      else Some (Unref h (front c), PopFront c, false)
    else if wasteful E h (front c) 0 then
      if (1 <? n) && (is_empty h f || wasteful E h f 0) then PrependChain_merge h c f n opt
      else if can_prepend h (front c) (size h f) && ((n =? 1) || negb (wasteful E h (front c) (size h f))) && (size h f <=? kAllocationCost + size h (front c)) then
        let* h := Block_Prepend h (front c) (data h f) in Some (h, RefreshFront h c, true)
      else
        let* (b, h) := Block_Copy E h (front c) in
        let '(h, c) := SetFrontSameSize h c b in Some (h, c, false)
    else if 1 <? n then
      if is_empty h f then Some (h, c, true)
      else if wasteful E h f 0 then
        if can_prepend h (front c) (size h f) && negb (wasteful E h (front c) (size h f)) then
          let* h := Block_Prepend h (front c) (data h f) in Some (h, RefreshFront h c, true)
        else
          let* (b, h) := Block_Copy E h f in Some (h, PushFront h c b, true)
      else Some (h, c, false)
    else Some (h, c, false)
  end.
(** chain.cc:1582-1708 Prepend(const Chain&) ([share]), Prepend(Chain&&) *)
Definition PrependChain (share : bool) (h : heap) (c src : chain) (opt : options) : option (heap * chain * chain) :=
  match cblocks src with
  | [] => let* (h, c) := Prepend h c (short_data src) opt in Some (h, c, src)
  | _ =>
    let f := back src in let rest := removelast (cblocks src) in
    check (csize src <=? SIZE_MAX - csize c)
    (let* r := PrependChain_last h c f (count src) opt in
    let '(h, c, skip) := r in
    let h := if skip && negb share then Unref h f else h in
    let c := with_size c (csize c + csize src) in
    let '(h, c) := PrependBlocks share h c (if skip then rest else rest ++ [f]) in
    Some (h, c, if share then src else with_size (with_blocks src [] (match coffs src with Some _ => Some [] | None => None end)) 0))
  end.

(** chain.cc:1441-1514 AppendRawBlock() of a Block which is passed: the caller's reference to [b] is taken over, or dropped by the destructor of the Block if the data were copied *)
Definition AppendRawBlock (h : heap) (c : chain) (b : Z) (opt : options) : option (heap * chain) :=
  let grown (h : heap) (c : chain) := with_size c (csize c + size h b) in
  check (size h b <=? SIZE_MAX - csize c)
  match cblocks c with
  | [] =>
    if negb (csize c =? 0) then
      if tiny h b then
        check (size h b <=? kMaxCapacity - csize c)
        (let* k := NewBlockCapacity c (csize c) (Z.max (size h b) (kMaxShortDataSize - csize c)) 0 opt in
        let* (m, h) := NewInternal E h k in
        let* h := Block_AppendExplicit h m (short_data c) kMaxShortDataSize in
        let* h := Block_Append h m (data h b) in
        Some (Unref h b, grown h (PushBack h c m)))
      else
        let* (r, h) := NewInternal E h kMaxShortDataSize in
        let* h := Block_AppendExplicit h r (short_data c) kMaxShortDataSize in
        let c := PushBack h c r in
        Some (h, PushBack h (grown h c) b)
    else Some (h, PushBack h (grown h c) b)
  | _ =>
    if tiny h (back c) && tiny h b then
      if can_append h (back c) (size h b) then
        let* h' := Block_Append h (back c) (data h b) in Some (Unref h' b, grown h c)
      else
        check (size h b <=? kMaxCapacity - size h (back c))
        (let* k := NewBlockCapacity c (size h (back c)) (size h b) 0 opt in
        let* (m, h) := NewInternal E h k in
        let* h := Block_Append h m (data h (back c)) in
        let* h := Block_Append h m (data h b) in
        let c' := grown h c in
        let '(h, c) := SetBack h c' m in Some (Unref h b, c))
    else if is_empty h (back c) then Some (SetBack h (grown h c) b)
    else if wasteful E h (back c) 0 then
      if can_append h (back c) (size h b) && (size h b <=? kAllocationCost + size h (back c)) then
        let* h' := Block_Append h (back c) (data h b) in Some (Unref h' b, grown h c)
      else
        let* (n, h) := Block_Copy E h (back c) in
        let '(h, c) := SetBack h c n in Some (h, PushBack h (grown h c) b)
    else Some (h, PushBack h (grown h c) b)
  end.
(** chain.cc:1721-1786 PrependRawBlock() *)
Definition PrependRawBlock (h : heap) (c : chain) (b : Z) (opt : options) : option (heap * chain) :=
  let grown (h : heap) (c : chain) := with_size c (csize c + size h b) in
  check (size h b <=? SIZE_MAX - csize c)
  match cblocks c with
  | [] =>
    if negb (csize c =? 0) then
      if tiny h b then
        check (size h b <=? kMaxCapacity - csize c)
        (let* k := NewBlockCapacity c (csize c) (size h b) 0 opt in
        let* (m, h) := NewInternal E h k in
        let* h := Block_Prepend h m (short_data c) in
        let* h := Block_Prepend h m (data h b) in
        Some (Unref h b, grown h (PushFront h c m)))
      else
        let* (r, h) := NewInternal E h kMaxShortDataSize in
        let* h := Block_AppendExplicit h r (short_data c) kMaxShortDataSize in
        let c := PushFront h c r in
        Some (h, PushFront h (grown h c) b)
    else Some (h, PushFront h (grown h c) b)
  | _ =>
    if tiny h (front c) && tiny h b then
      if can_prepend h (front c) (size h b) then
        let* h' := Block_Prepend h (front c) (data h b) in Some (Unref h' b, grown h (RefreshFront h' c))
      else
        check (size h b <=? kMaxCapacity - size h (front c))
        (let* k := NewBlockCapacity c (size h (front c)) (size h b) 0 opt in
        let* (m, h) := NewInternal E h k in
        let* h := Block_Prepend h m (data h (front c)) in
        let* h := Block_Prepend h m (data h b) in
        let c' := grown h c in
        let '(h, c) := SetFront h c' m in Some (Unref h b, c))
    else if is_empty h (front c) then Some (SetFront h (grown h c) b)
    else if wasteful E h (front c) 0 then
      if can_prepend h (front c) (size h b) && (size h b <=? kAllocationCost + size h (front c)) then
        let* h' := Block_Prepend h (front c) (data h b) in Some (Unref h' b, grown h (RefreshFront h' c))
      else
        let* (n, h) := Block_Copy E h (front c) in
        let '(h, c) := SetFrontSameSize h c n in Some (h, PushFront h (grown h c) b)
    else Some (h, PushFront h (grown h c) b)
  end.

(** chain_base.h:180-187 MaxBytesToCopy() *)
Definition MaxBytesToCopy (c : chain) (opt : options) : Z :=
  match size_hint opt with
  | Some s => if csize c <? s then UnsignedClamp (s - csize c - 1) kMaxShortDataSize kMaxBytesToCopy else if csize c =? 0 then kMaxShortDataSize else kMaxBytesToCopy
  | None => if csize c =? 0 then kMaxShortDataSize else kMaxBytesToCopy
  end.
(** external_ref_base.h:1994-2017, 1519-1531 Append(ExternalRef) of an external object with the given bytes; 2019-2046 Prepend(ExternalRef) *)
Definition AppendExternal (h : heap) (c : chain) (src : list Z) (opt : options) : option (heap * chain) :=
  if zlen src <=? MaxBytesToCopy c opt then Append h c src opt else let '(b, h) := NewExternal h src in AppendRawBlock h c b opt.
Definition PrependExternal (h : heap) (c : chain) (src : list Z) (opt : options) : option (heap * chain) :=
  if zlen src <=? MaxBytesToCopy c opt then Prepend h c src opt else let '(b, h) := NewExternal h src in PrependRawBlock h c b opt.
(** chain_details.h:853-859 Block(IntrusiveSharedPtr<RawBlock>), chain.cc:323-326 ToChainBlock(substr): the block for the [len] bytes at [off] of the data of [b], taking over the reference to [b] *)
Definition MakeBlock (h : heap) (b off len : Z) : Z * heap :=
  let '(t, off, h) := match find_wrap h b with Some (t, o) => (t, o + off, Unref (Ref h t) b) | None => (b, off, h) end in
  if len =? size h t then (t, h) else NewWrapper h t off len.

(** chain.cc:1851-1893 RemoveSuffix(): the loop which drops whole blocks *)
Fixpoint drop_back (fuel : nat) (h : heap) (c : chain) (length : Z) : option (heap * chain * Z) :=
  if size h (back c) <? length then
    match fuel with
    | O => None
    | S fuel => let h' := Unref h (back c) in let c' := PopBack c in check (negb (count c' =? 0)) (drop_back fuel h' c' (length - size h (back c)))
    end
  else Some (h, c, length).
Definition RemoveSuffix (h : heap) (c : chain) (length : Z) (opt : options) : option (heap * chain) :=
  if length =? 0 then Some (h, c) else
  check (length <=? csize c)
  (let c := with_size c (csize c - length) in
  match cblocks c with
  | [] => Some (h, c)
  | _ =>
    let* r := drop_back (Datatypes.length (cblocks c)) h c length in
    let '(h, c, length) := r in
    let l := back c in
    let '(removed, h) := TryRemoveSuffix h l length in
    if removed then
      if (1 <? count c) && tiny h l && tiny h (back (PopBack c)) then
        let c := PopBack c in
        if is_empty h l then Some (Unref h l, c)
        else
          check (size h l <=? kMaxCapacity - size h (back c))
          (let* k := NewBlockCapacity c (size h (back c) + size h l) 0 0 opt in
          let* (m, h) := NewInternal E h k in
          let* h := Block_Append h m (data h (back c)) in
          let* h := Block_Append h m (data h l) in
          let '(h, c) := SetBack h c m in Some (Unref h l, c))
      else Some (h, c)
    else
      let c := PopBack c in
      if length =? size h l then Some (Unref h l, c)
      else
        let d := ztake (size h l - length) (data h l) in
        let c := with_size c (csize c - zlen d) in
        if zlen d <=? MaxBytesToCopy c opt then let* (h, c) := Append h c d opt in Some (Unref h l, c)
        else let '(b, h) := MakeBlock h l 0 (zlen d) in AppendRawBlock h c b opt
  end).
(** chain.cc:1895-1941 RemovePrefix() *)
Fixpoint drop_front (fuel : nat) (h : heap) (c : chain) (length : Z) : option (heap * chain * Z) :=
  if size h (front c) <? length then
    match fuel with
    | O => None
    | S fuel => let h' := Unref h (front c) in let c' := PopFront c in check (negb (count c' =? 0)) (drop_front fuel h' c' (length - size h (front c)))
    end
  else Some (h, c, length).
Definition RemovePrefix (h : heap) (c : chain) (length : Z) (opt : options) : option (heap * chain) :=
  if length =? 0 then Some (h, c) else
  check (length <=? csize c)
  (let c := with_size c (csize c - length) in
  match cblocks c with
  | [] => Some (h, {| csize := csize c; cshort := zdrop length (cshort c); cblocks := []; coffs := coffs c |})
  | _ =>
    let* r := drop_front (Datatypes.length (cblocks c)) h c length in
    let '(h, c, length) := r in
    let l := front c in
    let '(removed, h) := TryRemovePrefix h l length in
    if removed then
      let c := RefreshFront h c in
      if (1 <? count c) && tiny h l && tiny h (front (PopFront c)) then
        let c := PopFront c in
        if is_empty h l then Some (Unref h l, c)
        else
          check (size h l <=? kMaxCapacity - size h (front c))
          (let* k := NewBlockCapacity c (size h l + size h (front c)) 0 0 opt in
          let* (m, h) := NewInternal E h k in
          let* h := Block_Prepend h m (data h (front c)) in
          let* h := Block_Prepend h m (data h l) in
          let '(h, c) := SetFront h c m in Some (Unref h l, c))
      else Some (h, c)
    else
      let c := PopFront c in
      if length =? size h l then Some (Unref h l, c)
      else
        let d := zdrop length (data h l) in
        let c := with_size c (csize c - zlen d) in
        if zlen d <=? MaxBytesToCopy c opt then let* (h, c) := Prepend h c d opt in Some (Unref h l, c)
        else let '(b, h) := MakeBlock h l length (zlen d) in PrependRawBlock h c b opt
  end).

(** chain_details.h:1005-1008 Clear(), chain.cc:363-372 ClearSlow() *)
Definition Clear (h : heap) (c : chain) : heap * chain :=
  let c := with_size c 0 in
  match cblocks c with
  | [] => (h, c)
  | f :: rest =>
    let '(remains, h) := TryClear h f in
    if remains then (UnrefBlocks h rest, with_blocks c [f] (option_map (fun l => [hd 0 l]) (coffs c)))
    else (UnrefBlocks h (f :: rest), with_blocks c [] (option_map (fun _ => []) (coffs c)))
  end.
(** chain_details.h:990-993 the destructor *)
Definition Destroy (h : heap) (c : chain) : heap := UnrefBlocks h (cblocks c).
(** chain.cc:354-360 operator=(const Chain&), 455-464 Initialize(const Chain&) *)
Definition Assign (h : heap) (c src : chain) : heap * chain :=
  let h := UnrefBlocks h (cblocks c) in
  let c := with_size (with_blocks c [] (option_map (fun _ => []) (coffs c))) (csize src) in
  match cblocks src with
  | [] => (h, {| csize := csize src; cshort := cshort src; cblocks := []; coffs := None |})
  | bs => AppendBlocks true h c bs
  end.
(** chain.cc:475-497 FlattenSlow(), chain_details.h:1090-1099 Flatten() *)
Fixpoint append_all (h : heap) (m : Z) (bs : list Z) : option heap :=
  match bs with [] => Some h | b :: bs => let* h := Block_Append h m (data h b) in append_all h m bs end.
Definition Flatten (h : heap) (c : chain) : option (heap * chain) :=
  if count c <=? 1 then Some (h, c) else
  let '(h, c) := if is_empty h (front c) then (Unref h (front c), PopFront c) else (h, c) in
  if count c =? 1 then Some (h, c) else
  let '(h, c) := if is_empty h (back c) then (Unref h (back c), PopBack c) else (h, c) in
  if count c =? 1 then Some (h, c) else
  let* k := NewBlockCapacity c 0 (csize c) (csize c) {| size_hint := None; min_block_size := kDefaultMinBlockSize; max_block_size := kDefaultMaxBlockSize |} in
  let* (m, h) := NewInternal E h k in
  let* h := append_all h m (cblocks c) in
  let h := UnrefBlocks h (cblocks c) in
  Some (h, PushBack h (with_blocks c [] (option_map (fun _ => []) (coffs c))) m).
End Ops.

(** chain_details.h:964-988 operator=(Chain&&), with [src] as the call leaves it (that is another chain) *)
Definition MoveAssign (h : heap) (c src : chain) : heap * chain * chain := (UnrefBlocks h (cblocks c), src, empty_chain).
(** chain_details.h:867-900 blocks() *)
Definition views (h : heap) (c : chain) : list (list Z) :=
  match cblocks c with [] => if csize c =? 0 then [] else [short_data c] | bs => map (data h) bs end.
(** chain.cc:519-537 CopyTo(), CopyToSlow() *)
Definition CopyTo (h : heap) (c : chain) : list Z := match cblocks c with [] => short_data c | bs => fold_left (fun dest b => dest ++ data h b) bs [] end.
(** std::upper_bound() with a predicate which holds for a suffix of the sequence: the first index where it holds *)
Fixpoint upper_bound (p : Z -> bool) (l : list Z) : Z := match l with [] => 0 | x :: l => if p x then 0 else 1 + upper_bound p l end.
(** chain.cc:708-742 BlockAndCharIndex(): the index of the block, or the number of blocks, and the index in the block *)
Definition BlockAndCharIndex (h : heap) (c : chain) (i : Z) : option (Z * Z) :=
  check (i <=? csize c)
  (if i =? csize c then Some (zlen (views h c), 0)
  else match cblocks c with
  | [] => Some (0, i)
  | b0 :: rest =>
    match coffs c with
    | None =>
      if size h b0 <=? i then
        match rest with b1 :: _ => check (i - size h b0 <? size h b1) (Some (1, i - size h b0)) | [] => None end
      else Some (0, i)
    | Some l =>
      let base := hd 0 l in
      let found := 1 + upper_bound (fun o => i <? u64 (o - base)) (tl l) - 1 in
      Some (found, u64 (i - u64 (nth (Z.to_nat found) l 0 - base)))
    end
  end).
(** chain.cc:290-313 CharIndexInChainInternal() of the block with the index [k], or of the end *)
Definition CharIndexInChain (h : heap) (c : chain) (k : Z) : option Z :=
  match cblocks c with
  | [] => if (csize c =? 0) || negb (k =? 0) then Some (csize c) else Some 0
  | b0 :: _ =>
    if k =? count c then Some (csize c)
    else match coffs c with
    | None => if k =? 0 then Some 0 else if k =? 1 then Some (size h b0) else None
    | Some l => Some (u64 (nth (Z.to_nat k) l 0 - hd 0 l))
    end
  end.

(** std::memcmp() of bytes of the same length *)
Fixpoint memcmp (a b : list Z) : comparison :=
  match a, b with x :: a, y :: b => match x ?= y with Eq => memcmp a b | other => other end | _, _ => Eq end.
Definition nonempty (v : list Z) : bool := negb (zlen v =? 0).
(** chain.cc:1958-1994 Compare(const Chain&, const Chain&): the blocks which remain, and the positions in the first ones *)
Fixpoint compare_loop (fuel : nat) (a b : list (list Z)) (i j : Z) : option comparison :=
  match a with
  | [] => Some (if existsb nonempty b then Lt else Eq)
  | x :: a' =>
    match b with
    | [] => Some (if existsb nonempty a then Gt else Eq)
    | y :: b' =>
      match fuel with
      | O => None
      | S fuel =>
        let length := Z.min (zlen x - i) (zlen y - j) in
        match memcmp (ztake length (zdrop i x)) (ztake length (zdrop j y)) with
        | Eq =>
          let '(a, i) := if i + length =? zlen x then (a', 0) else (a, i + length) in
          let '(b, j) := if j + length =? zlen y then (b', 0) else (b, j + length) in
          compare_loop fuel a b i j
        | other => Some other
        end
      end
    end
  end.
Definition Compare (h : heap) (a b : chain) : option comparison := compare_loop (length (views h a) + length (views h b)) (views h a) (views h b) 0 0.
(** chain.cc:1996-2023 Compare(const Chain&, string_view) *)
Fixpoint compare_str_loop (a : list (list Z)) (b : list Z) (j : Z) : option comparison :=
  match a with
  | [] => Some (if j =? zlen b then Eq else Lt)
  | x :: a' =>
    if j =? zlen b then Some (if existsb nonempty a then Gt else Eq)
    else
      (* the block is either used up in one step, or the string is *)
      let length := Z.min (zlen x) (zlen b - j) in
      match memcmp (ztake length x) (ztake length (zdrop j b)) with
      | Eq => if length =? zlen x then compare_str_loop a' b (j + length) else Some (if existsb nonempty a then Gt else Eq)
      | other => Some other
      end
  end.
Definition CompareStr (h : heap) (a : chain) (b : list Z) : option comparison := compare_str_loop (views h a) b 0.
(** chain_base.h:352-361 operator== *)
Definition Equal (h : heap) (a b : chain) : option bool := if csize a =? csize b then option_map (fun o => match o with Eq => true | _ => false end) (Compare h a b) else Some false.
Definition EqualStr (h : heap) (a : chain) (b : list Z) : option bool := if csize a =? zlen b then option_map (fun o => match o with Eq => true | _ => false end) (CompareStr h a b) else Some false.
