(** Model of riegeli/base/compact_string.{h,cc}: a string whose representation is one word, which is either its bytes or a tagged pointer.

    [None] is a failed RIEGELI_ASSERT, RIEGELI_ASSUME or RIEGELI_CHECK, an access outside the memory which is allocated, a wrong deallocation, or an allocation which the allocator refuses.
    The memory is a list of allocations with their addresses and bytes.  Words have 64 bits and the machine is little endian.
    Not modelled: MarkPoisoned(), hashing, MemoryEstimator, DumpStructure().  RawMove() and MoveFromRaw() are the identity of the representation. *)
From Verif Require Import Base.Bytes.

Notation "'let*' p ':=' e 'in' k" := (match e with Some p => k | None => None end) (at level 200, p pattern, k at level 200).
Definition check {A} (b : bool) (k : option A) : option A := if b then k else None.

Definition heap := list (Z * list Z).
(** What depends on the platform: the address and the old contents of the memory which the allocator returns, in the given state, for the given length. *)
Record env := { place : heap -> Z -> Z; contents : heap -> Z -> list Z }.

Fixpoint find_block (h : heap) (b : Z) : option (list Z) := match h with [] => None | (k, l) :: h => if k =? b then Some l else find_block h b end.
Fixpoint set_block (h : heap) (b : Z) (v : list Z) : heap := match h with [] => [] | (k, l) :: h => if k =? b then (k, v) :: h else (k, l) :: set_block h b v end.
Fixpoint remove_block (h : heap) (b : Z) : heap := match h with [] => [] | (k, l) :: h => if k =? b then h else (k, l) :: remove_block h b end.
(** memcpy() from and to the allocation which starts at [b] *)
Definition overwrite (l : list Z) (off : Z) (v : list Z) : list Z := ztake off l ++ v ++ zdrop (off + zlen v) l.
Definition load (h : heap) (b off n : Z) : option (list Z) :=
  let* l := find_block h b in check ((0 <=? off) && (0 <=? n) && (off + n <=? zlen l)) (Some (zslice off n l)).
Definition store (h : heap) (b off : Z) (v : list Z) : option heap :=
  let* l := find_block h b in check ((0 <=? off) && (off + zlen v <=? zlen l)) (Some (set_block h b (overwrite l off v))).

(** compact_string.h:369-374, 82-84; PTRDIFF_MAX *)
Definition kTagMask : Z := 7.
Definition kInlineTag : Z := 6.
Definition kInlineCapacity : Z := 7.
Definition max_size : Z := 2 ^ 64 - 1 - 16.
Definition max_allocation : Z := 2 ^ 63 - 1.

(** arithmetic.h:369-371 RoundUp<16>(), estimated_allocated_size.h:29-34 *)
Definition RoundUp16 (value : Z) : Z := u64 (Z.lor (u64 (value - 1)) 15 + 1).
Definition EstimatedAllocatedSize (requested_size : Z) : Z := RoundUp16 (Z.max requested_size 32).

Definition tag (r : Z) : Z := Z.land r kTagMask.
(** compact_string.h:633 the length of what is stored before the data, for an allocated representation; the address where the allocation starts *)
Definition header (t : Z) : Z := if t =? 0 then 16 else t.
Definition base (r : Z) : Z := r - header (tag r).

(** A pointer to data: to the bytes of the representation itself, or to an allocation *)
Inductive ptr := In_repr (off : Z) | In_heap (b off : Z).
Definition advance (p : ptr) (n : Z) : ptr := match p with In_repr off => In_repr (off + n) | In_heap b off => In_heap b (off + n) end.
Definition read (h : heap) (r : Z) (p : ptr) (n : Z) : option (list Z) :=
  match p with
  | In_repr off => check ((0 <=? off) && (0 <=? n) && (off + n <=? 8)) (Some (zslice off n (le_bytes 8 r)))
  | In_heap b off => load h b off n
  end.
Definition write (h : heap) (r : Z) (p : ptr) (v : list Z) : option (heap * Z) :=
  match p with
  | In_repr off => check ((0 <=? off) && (off + zlen v <=? 8)) (Some (h, le_val (overwrite (le_bytes 8 r) off v)))
  | In_heap b off => let* h := store h b off v in Some (h, r)
  end.
(** The bytes which are passed as a string_view: of an object elsewhere, or a part of the CompactString itself, where they are when the call begins *)
Inductive source := Elsewhere (s : list Z) | Here (p : ptr) (n : Z).
Definition source_size (s : source) : Z := match s with Elsewhere s => zlen s | Here _ n => n end.
Definition read_source (h : heap) (r : Z) (s : source) : option (list Z) := match s with Elsewhere s => Some s | Here p n => read h r p n end.

(** compact_string.h:388-399 *)
Definition inline_data (r : Z) : option ptr := check (tag r =? kInlineTag) (Some (In_repr 1)).
(** compact_string.h:403-414 *)
Definition inline_size (r : Z) : option Z := check (tag r =? kInlineTag) (let size := Z.shiftr (Z.land r 255) 3 in check (size <=? kInlineCapacity) (Some size)).
(** compact_string.h:418-423 *)
Definition allocated_data (r : Z) : option ptr := check (negb (tag r =? kInlineTag)) (Some (In_heap (base r) (header (tag r)))).
(** compact_string.h:443-451, with sizeof(T) = [w] *)
Definition allocated_size (w : nat) (h : heap) (r : Z) : option Z :=
  check (header (tag r) =? 2 * Z.of_nat w) (let* p := allocated_data r in let* b := read h r (advance p (- Z.of_nat w)) (Z.of_nat w) in Some (le_val b)).
(** compact_string.h:429-434 *)
Definition allocated_size_for_tag (t : Z) (h : heap) (r : Z) : option Z :=
  if t =? 2 then allocated_size 1 h r else if t =? 4 then allocated_size 2 h r else if t =? 0 then allocated_size 8 h r else None.
(** compact_string.h:455-460 *)
Definition set_inline_size (size r : Z) : option Z := check (tag r =? kInlineTag) (Some (Z.lor (Z.land r (Z.lnot 248)) (Z.shiftl size 3))).
(** compact_string.h:468-475; IntCast asserts that the value fits *)
Definition set_allocated_size (w : nat) (h : heap) (size r : Z) : option heap :=
  check (header (tag r) =? 2 * Z.of_nat w) (check (size <? 2 ^ (8 * Z.of_nat w)) (let* p := allocated_data r in let* (h, _) := write h r (advance p (- Z.of_nat w)) (le_bytes w size) in Some h)).
(** compact_string.h:743-763 *)
Definition set_allocated_size_for_tag (t : Z) (h : heap) (new_size r : Z) : option heap :=
  if t =? 2 then set_allocated_size 1 h new_size r else if t =? 4 then set_allocated_size 2 h new_size r else if t =? 0 then set_allocated_size 8 h new_size r else None.
(** compact_string.h:496-510 *)
Definition allocated_capacity (w : nat) (h : heap) (r : Z) : option Z :=
  check (header (tag r) =? 2 * Z.of_nat w) (let* p := allocated_data r in let* b := read h r (advance p (- (2 * Z.of_nat w))) (Z.of_nat w) in
  let c := le_val b in check (kInlineCapacity <? c) (Some c)).
(** compact_string.h:483-488 *)
Definition allocated_capacity_for_tag (t : Z) (h : heap) (r : Z) : option Z :=
  if t =? 2 then allocated_capacity 1 h r else if t =? 4 then allocated_capacity 2 h r else if t =? 0 then allocated_capacity 8 h r else None.
(** compact_string.h:512-520 *)
Definition set_allocated_capacity (w : nat) (h : heap) (capacity r : Z) : option heap :=
  check (header (tag r) =? 2 * Z.of_nat w) (check (capacity <? 2 ^ (8 * Z.of_nat w)) (let* p := allocated_data r in let* (h, _) := write h r (advance p (- (2 * Z.of_nat w))) (le_bytes w capacity) in Some h)).

Section Ops.
Context (E : env).

(** compact_string.h:522-527 *)
Definition Allocate (h : heap) (size : Z) : option (Z * heap) := check (size <=? max_allocation) (Some (place E h size, (place E h size, contents E h size) :: h)).
Definition Free (h : heap) (b size : Z) : option heap := let* l := find_block h b in check (zlen l =? size) (Some (remove_block h b)).

(** compact_string.cc:50-84; one of the three variants, with sizeof(T) = [w] *)
Definition MakeReprSized (w : nat) (h : heap) (size requested : Z) : option (heap * Z) :=
  let* (b, h) := Allocate h requested in
  let r := b + 2 * Z.of_nat w in
  let* h := set_allocated_capacity w h (u64 (requested - 2 * Z.of_nat w)) r in
  let* h := set_allocated_size w h size r in
  Some (h, r).
Definition MakeReprSlow (h : heap) (size capacity : Z) : option (heap * Z) :=
  check (size <=? capacity) (check (kInlineCapacity <? capacity)
  (if capacity <=? 255 then MakeReprSized 1 h size (Z.min (EstimatedAllocatedSize (capacity + 2)) (255 + 2))
  else if capacity <=? 65535 then MakeReprSized 2 h size (Z.min (EstimatedAllocatedSize (capacity + 4)) (65535 + 4))
  else check (capacity <=? max_size) (MakeReprSized 8 h size (EstimatedAllocatedSize (capacity + 16))))).
(** compact_string.h:599-608, 610-612 *)
Definition MakeRepr (h : heap) (size capacity : Z) : option (heap * Z) :=
  check (size <=? capacity) (if capacity <=? kInlineCapacity then Some (h, Z.shiftl size 3 + kInlineTag) else MakeReprSlow h size capacity).
(** compact_string.h:614-626 from bytes of another object or of the object whose representation is [old] *)
Definition MakeReprFrom (h : heap) (old : Z) (src : source) (capacity : Z) : option (heap * Z) :=
  let* (h, r) := MakeRepr h (source_size src) capacity in
  let* p := if capacity <=? kInlineCapacity then inline_data r else allocated_data r in
  let* s := read_source h old src in write h r p s.
(** compact_string.h:628-635 *)
Definition DeleteRepr (h : heap) (r : Z) : option heap :=
  if tag r =? kInlineTag then Some h
  else let offset := header (tag r) in let* c := allocated_capacity_for_tag (tag r) h r in Free h (r - offset) (c + offset).

(** compact_string.h:688-699, 702-706, 708-712 *)
Definition data (r : Z) : option ptr := if tag r =? kInlineTag then inline_data r else allocated_data r.
Definition size (h : heap) (r : Z) : option Z := if tag r =? kInlineTag then inline_size r else allocated_size_for_tag (tag r) h r.
Definition capacity (h : heap) (r : Z) : option Z := if tag r =? kInlineTag then Some kInlineCapacity else allocated_capacity_for_tag (tag r) h r.
(** compact_string.h:250-265 ViewFromRaw(), 714-717 *)
Definition ViewFromRaw (h : heap) (r : Z) : option (list Z) :=
  check (negb (r =? 0)) (check (Z.land r 1 =? 0)
  (if tag r =? kInlineTag then let* p := inline_data r in let* n := inline_size r in read h r p n
   else let* p := allocated_data r in let* n := allocated_size_for_tag (tag r) h r in read h r p n)).
(** compact_string.h:732-741 *)
Definition set_size (h : heap) (r new_size : Z) : option (heap * Z) :=
  let* c := capacity h r in
  check (new_size <=? c) (if tag r =? kInlineTag then let* r := set_inline_size new_size r in Some (h, r) else let* h := set_allocated_size_for_tag (tag r) h new_size r in Some (h, r)).

(** compact_string.cc:33-38 *)
Definition AssignSlow (h : heap) (r : Z) (src : source) : option (heap * Z) :=
  let* old_capacity := capacity h r in
  let* (h, n) := MakeReprFrom h r src (Z.max (source_size src) (u64 (old_capacity + old_capacity / 2))) in
  let* h := DeleteRepr h r in Some (h, n).
(** compact_string.h:637-646 operator=(BytesRef) *)
Definition Assign (h : heap) (r : Z) (src : source) : option (heap * Z) :=
  let* c := capacity h r in
  if source_size src <=? c then
    let* (h, r) := set_size h r (source_size src) in
    let* p := data r in let* s := read_source h r src in write h r p s
  else AssignSlow h r src.
(** compact_string.h:648-656 the copy constructor *)
Definition Copy (h : heap) (that : Z) : option (heap * Z) :=
  if tag that =? kInlineTag then Some (h, that)
  else let* p := allocated_data that in let* n := allocated_size_for_tag (tag that) h that in MakeReprFrom h that (Here p n) n.
(** compact_string.h:658-686 operator=(const CompactString&), compact_string.cc:40-48, of another CompactString or of itself ([that = r]) *)
Definition AssignCopy (h : heap) (r that : Z) : option (heap * Z) :=
  if tag that =? kInlineTag then
    if tag r =? kInlineTag then Some (h, that)
    else
      let* n := inline_size that in
      let* h := set_allocated_size_for_tag (tag r) h n r in
      let* c := capacity h r in
      check (kInlineCapacity <=? c) (let* p := allocated_data r in let* q := inline_data that in let* s := read h that q kInlineCapacity in write h r p s)
  else
    let* n := allocated_size_for_tag (tag that) h that in
    let* c := capacity h r in
    let* q := allocated_data that in
    if n <=? c then
      let* (h, r) := set_size h r n in
      let* p := data r in let* s := read h that q n in write h r p s
    else let* s := read h that q n in AssignSlow h r (Elsewhere s).

(** compact_string.cc:86-110; the caller gets a pointer to the data after [used_size] *)
Definition ResizeSlow (h : heap) (r new_size min_capacity used_size : Z) : option (heap * Z) :=
  check (new_size <=? min_capacity)
  (let* n := size h r in
  check (used_size <=? n) (check (used_size <=? new_size)
  (let* old_capacity := capacity h r in
  check (kInlineCapacity <? min_capacity)
  (let* (h, new) := MakeReprSlow h new_size (Z.max min_capacity (u64 (old_capacity + old_capacity / 2))) in
  let* q := allocated_data new in
  let* p := data r in let* s := read h r p used_size in
  let* (h, new) := write h new q s in
  let* h := DeleteRepr h r in Some (h, new))))).
(** compact_string.h:765-771, 773-797, 799-803 *)
Definition resize (h : heap) (r new_size : Z) : option (heap * Z) :=
  let* c := capacity h r in
  if new_size <=? c then set_size h r new_size else let* n := size h r in ResizeSlow h r new_size new_size n.
Definition resize_used (h : heap) (r new_size used_size : Z) : option (heap * Z) :=
  let* n := size h r in
  check (used_size <=? n) (check (used_size <=? new_size)
  (let* c := capacity h r in
  if new_size <=? c then set_size h r new_size else ResizeSlow h r new_size new_size used_size)).
Definition reserve (h : heap) (r min_capacity : Z) : option (heap * Z) :=
  let* c := capacity h r in
  if min_capacity <=? c then Some (h, r) else let* used_size := size h r in ResizeSlow h r used_size min_capacity used_size.
(** compact_string.h:805-809, compact_string.cc:112-146 *)
Definition shrink_to_fit (h : heap) (r : Z) : option (heap * Z) :=
  if tag r =? kInlineTag then Some (h, r)
  else
    let again (n : Z) : option (heap * Z) :=
      let* p := allocated_data r in let* (h, new) := MakeReprFrom h r (Here p n) n in let* h := DeleteRepr h r in Some (h, new) in
    if tag r =? 2 then
      let* n := allocated_size 1 h r in let* c := allocated_capacity 1 h r in
      if (kInlineCapacity <? n) && (c + 2 <=? Z.min (EstimatedAllocatedSize (n + 2)) (255 + 2)) then Some (h, r) else again n
    else if tag r =? 4 then
      let* n := allocated_size 2 h r in let* c := allocated_capacity 2 h r in
      if (255 <? n) && (c + 4 <=? Z.min (EstimatedAllocatedSize (n + 4)) (65535 + 4)) then Some (h, r) else again n
    else if tag r =? 0 then
      let* n := allocated_size 8 h r in let* c := allocated_capacity 8 h r in
      if (65535 <? n) && (c + 16 <=? EstimatedAllocatedSize (n + 16)) then Some (h, r) else again n
    else None.
(** compact_string.h:811-820, compact_string.cc:148-154 append(size_t) *)
Definition append_length (h : heap) (r length : Z) : option (heap * Z) :=
  let* old_size := size h r in let* old_capacity := capacity h r in
  if length <=? old_capacity - old_size then set_size h r (old_size + length)
  else check (length <=? max_size - old_size) (ResizeSlow h r (old_size + length) (old_size + length) old_size).
(** compact_string.h:822-831, compact_string.cc:156-179 append(string_view) *)
Definition append (h : heap) (r : Z) (src : source) : option (heap * Z) :=
  let* old_size := size h r in let* old_capacity := capacity h r in
  if source_size src <=? old_capacity - old_size then
    let* (h, r) := set_size h r (old_size + source_size src) in
    let* p := data r in let* s := read_source h r src in write h r (advance p old_size) s
  else
    check (source_size src <=? max_size - old_size)
    (let new_size := old_size + source_size src in
    check (kInlineCapacity <? new_size)
    (let* (h, new) := MakeReprSlow h new_size (Z.max new_size (u64 (old_capacity + old_capacity / 2))) in
    let* q := allocated_data new in
    let* p := data r in let* s := read h r p old_size in
    let* (h, new) := write h new q s in
    let* s := read_source h r src in
    let* (h, new) := write h new (advance q old_size) s in
    let* h := DeleteRepr h r in Some (h, new))).
(** compact_string.cc:181-191, compact_string.h:833-842 c_str(): also returns the bytes which the pointer points to, up to the NUL after the string *)
Definition ReserveOneMoreByteSlow (h : heap) (r : Z) : option (heap * Z) :=
  let* used_size := size h r in
  check (kInlineCapacity <? used_size + 1)
  (let* (h, new) := MakeReprSlow h used_size (used_size + 1) in
  let* q := allocated_data new in
  let* p := data r in let* s := read h r p used_size in
  let* (h, new) := write h new q s in
  let* h := DeleteRepr h r in Some (h, new)).
Definition c_str (h : heap) (r : Z) : option (heap * Z * list Z) :=
  let* used_size := size h r in let* c := capacity h r in
  let* (h, r) := if used_size =? c then ReserveOneMoreByteSlow h r else Some (h, r) in
  let* p := data r in
  let* (h, r) := write h r (advance p used_size) [0] in
  let* s := read h r p (used_size + 1) in Some (h, r, s).
End Ops.

(** compact_string.h:288-297 operator==, Compare *)
Definition Equal (h : heap) (a b : Z) : option bool := if a =? b then Some true else let* x := ViewFromRaw h a in let* y := ViewFromRaw h b in Some (list_eqb x y).
Definition Compare (h : heap) (a b : Z) : option comparison := if a =? b then Some Eq else let* x := ViewFromRaw h a in let* y := ViewFromRaw h b in Some (lex_cmp x y).

(** A program with a number of CompactString variables.  Bytes which a call leaves uninitialized are written by the caller before anything else ([fill]). *)
Inductive op :=
(** CompactString(), CompactString(size_t), CompactString(BytesRef), ForCStr(), the copy constructor: a new variable *)
| New | NewSize (fill : list Z) | NewFrom (s : list Z) | NewForCStr (s : list Z) | NewCopy (j : nat)
(** the destructor, followed by CompactString() in the same place *)
| Destroy (i : nat)
(** operator=(BytesRef) of bytes elsewhere, and of [n] bytes at [off] of the CompactString itself *)
| Assign_ (i : nat) (s : list Z) | AssignSelf (i : nat) (off n : Z)
(** operator=(const CompactString&), operator=(CompactString&&); also from itself *)
| AssignCopy_ (i j : nat) | Move (i j : nat)
(** set_size(), resize(new_size), resize(new_size, used_size), reserve(), shrink_to_fit(), append(length) *)
| SetSize (i : nat) (n : Z) (fill : list Z) | Resize (i : nat) (n : Z) (fill : list Z) | ResizeUsed (i : nat) (n used : Z) (fill : list Z)
| Reserve (i : nat) (n : Z) | ShrinkToFit (i : nat) | AppendLength (i : nat) (fill : list Z)
(** append(string_view) *)
| Append (i : nat) (s : list Z) | AppendSelf (i : nat) (off n : Z)
(** c_str() *)
| CStr (i : nat)
(** assignment to operator[] *)
| SetChar (i : nat) (k b : Z).

Record world := { wheap : heap; reprs : list Z }.
Definition start : world := {| wheap := []; reprs := [] |}.
Fixpoint set_nth {A} (i : nat) (x : A) (l : list A) : list A := match l, i with [], _ => [] | _ :: l, O => x :: l | y :: l, S i => y :: set_nth i x l end.
Definition get (w : world) (i : nat) : Z := nth i (reprs w) kInlineTag.
Definition put (w : world) (i : nat) (r : heap * Z) : world := {| wheap := fst r; reprs := set_nth i (snd r) (reprs w) |}.
Definition add (w : world) (r : heap * Z) : world := {| wheap := fst r; reprs := reprs w ++ [snd r] |}.
Definition fill_at (r : option (heap * Z)) (off : Z) (fill : list Z) : option (heap * Z) := let* (h, r) := r in let* p := data r in write h r (advance p off) fill.

Section Exec.
Context (E : env).
Definition exec (w : world) (o : op) : option world :=
  let h := wheap w in
  match o with
  | New => Some (add w (h, kInlineTag))
  | NewSize fill => option_map (add w) (fill_at (MakeRepr E h (zlen fill) (zlen fill)) 0 fill)
  | NewFrom s => option_map (add w) (MakeReprFrom E h 0 (Elsewhere s) (zlen s))
  | NewForCStr s => option_map (add w) (MakeReprFrom E h 0 (Elsewhere s) (zlen s + 1))
  | NewCopy j => option_map (add w) (Copy E h (get w j))
  | Destroy i => let* h := DeleteRepr h (get w i) in Some (put w i (h, kInlineTag))
  | Assign_ i s => option_map (put w i) (Assign E h (get w i) (Elsewhere s))
  | AssignSelf i off n => let* p := data (get w i) in option_map (put w i) (Assign E h (get w i) (Here (advance p off) n))
  | AssignCopy_ i j => option_map (put w i) (AssignCopy E h (get w i) (get w j))
  | Move i j => let w' := put w j (h, kInlineTag) in let* h := DeleteRepr h (get w' i) in Some (put w' i (h, get w j))
  | SetSize i n fill => let* m := size h (get w i) in option_map (put w i) (fill_at (set_size h (get w i) n) (Z.min n m) fill)
  | Resize i n fill => let* m := size h (get w i) in option_map (put w i) (fill_at (resize E h (get w i) n) (Z.min n m) fill)
  | ResizeUsed i n used fill => option_map (put w i) (fill_at (resize_used E h (get w i) n used) used fill)
  | Reserve i n => option_map (put w i) (reserve E h (get w i) n)
  | ShrinkToFit i => option_map (put w i) (shrink_to_fit E h (get w i))
  | AppendLength i fill => let* m := size h (get w i) in option_map (put w i) (fill_at (append_length E h (get w i) (zlen fill)) m fill)
  | Append i s => option_map (put w i) (append E h (get w i) (Elsewhere s))
  | AppendSelf i off n => let* p := data (get w i) in option_map (put w i) (append E h (get w i) (Here (advance p off) n))
  | CStr i => let* (h, r, _) := c_str E h (get w i) in Some (put w i (h, r))
  | SetChar i k b => let* m := size h (get w i) in check (k <? m) (option_map (put w i) (fill_at (Some (h, get w i)) k [b]))
  end.
Fixpoint run (w : world) (ops : list op) : option world := match ops with [] => Some w | o :: ops => let* w := exec w o in run w ops end.
End Exec.
