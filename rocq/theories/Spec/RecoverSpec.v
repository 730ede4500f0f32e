(** Vocabulary for reading damaged files. *)
From Verif Require Import Base.Bytes Model.ChunkReader.

(** The first block boundary at or after [q]. *)
Definition rup (q : Z) : Z := q + (- q) mod 65536.

(** The events cover [p, q) without gaps, each a non-empty part, in order. *)
Inductive tiles : Z -> list event -> Z -> Prop :=
| tiles_nil p : tiles p [] p
| tiles_got p e c es q : p < e -> tiles e es q -> tiles p (Got p c e :: es) q
| tiles_skip p e es q : p < e -> tiles e es q -> tiles p (Skipped p e :: es) q.

From Verif Require Import Spec.BlockSpec Spec.FileSpec Spec.ChunkLink.

(** The [n] bytes from position [p] on which are not in block headers. *)
Definition payload_at (content : list Z) (p n : Z) : list Z := ztake n (strip_headers p (zdrop p content)).

(** The damage does not happen to produce bytes with a matching hash: whatever in [damaged] looks like a
    block header at a block boundary, like the header of a chunk, or like the data of a chunk (where they were in the
    original), judging by the 64-bit hash, is the original one. *)
Record no_forgery (hash : list Z -> Z) (original damaged : list Z) (qs : list placed) : Prop := {
  nf_block : forall K, 0 <= K -> K mod 65536 = 0 -> K + 24 <= zlen damaged ->
    let b := zslice K 24 damaged in le64 (hash (zdrop 8 b)) = ztake 8 b -> b = zslice K 24 original;
  nf_header : forall q, In q qs ->
    let h := payload_at damaged (q_begin q) 40 in
    le64 (hash (zdrop 8 h)) = ztake 8 h -> h = chunk_header_bytes hash (q_chunk q);
  nf_data : forall q, In q qs ->
    let d := zdrop 40 (payload_at damaged (q_begin q) (40 + zlen (k_data (q_chunk q)))) in
    hash d = hash (k_data (q_chunk q)) -> d = k_data (q_chunk q) }.

(** A subsequence which drops only elements satisfying [may_drop]. *)
Inductive selects {A} (may_drop : A -> Prop) : list A -> list A -> Prop :=
| sel_nil : selects may_drop [] []
| sel_keep q l l' : selects may_drop l l' -> selects may_drop (q :: l) (q :: l')
| sel_drop q l l' : may_drop q -> selects may_drop l l' -> selects may_drop (q :: l) l'.

Definition got_events (es : list event) : list event :=
  filter (fun e => match e with Got _ _ _ => true | Skipped _ _ => false end) es.

(** Calls with 64-bit arguments, on a source which never shrinks (each call is paired with the content of the
    source at that time). *)
Definition op_ok (o : operation) : Prop :=
  match o with OpSeek p => 0 <= p < 2 ^ 64 | OpSeekTo _ p => 0 <= p < 2 ^ 64 | _ => True end.
Fixpoint growing (n : Z) (ops : list (operation * list Z)) : Prop :=
  match ops with
  | [] => True
  | (o, content) :: ops' => op_ok o /\ bytes content /\ n <= zlen content < 2 ^ 62 /\ growing (zlen content) ops'
  end.

(** Block headers with a matching hash are credible: unless a chunk begins at the block, the chunk ends
    strictly later, and not near the end of the address space. *)
Definition credible (hash : list Z -> Z) (content : list Z) : Prop :=
  forall K previous next, 0 <= K -> K mod 65536 = 0 -> 0 <= previous < 2 ^ 64 -> 0 <= next < 2 ^ 64 ->
    zslice K 24 content = block_header_bytes hash previous next ->
    (previous = 0 \/ 0 < next) /\ K + next + 65536 <= 2 ^ 64.
