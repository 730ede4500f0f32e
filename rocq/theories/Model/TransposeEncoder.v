(** Model of riegeli/chunk_encoding/{transpose_internal.h,transpose_encoder.h,transpose_encoder.cc}.

    [None] is a failed RIEGELI_ASSERT, an access out of bounds, a loop of the model out of fuel, or a failure reported by the encoder.
    Simplifications: records are given as byte strings (which Reader is used for them does not matter); message_nodes_ is the list of the
    keys in the order of insertion, so that message_id is the place in that list; encoded_tag_pos of a node is found by a search in
    tags_list_; the writer of a node is found by a search in data_ (one list of buffers with their types, instead of one list per type).
    kInvalidPos is [None]: tag and state indices are assumed to be less than 2^32 - 1.  Closing writers to memory does not fail. *)
From Verif Require Import Base.Bytes Model.Endian Model.Varint Model.Chunk Model.SimpleChunk.

(** ** Splitting records into columns *)
(** transpose_internal.h:26-34 MessageId *)
Definition kNoOp : Z := 0.
Definition kNonProto : Z := 1.
Definition kStartOfSubmessage : Z := 2.
Definition kStartOfMessage : Z := 3.
Definition kRoot : Z := 4.
(** riegeli/messages/message_wire_format.h WireType, and transpose_internal.h:48 kSubmessageWireType *)
Definition wVarint : Z := 0.
Definition wFixed64 : Z := 1.
Definition wLengthDelimited : Z := 2.
Definition wStartGroup : Z := 3.
Definition wEndGroup : Z := 4.
Definition wFixed32 : Z := 5.
Definition wSubmessage : Z := 6.
(** message_wire_format.h GetTagWireType, GetTagFieldNumber *)
Definition GetTagWireType (tag : Z) : Z := tag mod 8.
Definition GetTagFieldNumber (tag : Z) : Z := tag / 8.
(** transpose_internal.h:50-65 Subtype *)
Definition kTrivial : Z := 0.
Definition kVarint1 : Z := 0.
Definition kVarintInline0 : Z := 10.
Definition kVarintInlineMax : Z := 137.
Definition kLengthDelimitedString : Z := 0.
Definition kLengthDelimitedStartOfSubmessage : Z := 1.
Definition kLengthDelimitedEndOfSubmessage : Z := 2.
(** transpose_encoder.cc:69, 77 *)
Definition kMaxVarintInline : Z := 3.
Definition kMaxRecursionDepth : Z := 100.

(** transpose_encoder.cc:92-136 IsProtoMessage, from inside of [started_groups]; each field takes at least one byte *)
Fixpoint is_proto_message (fuel : nat) (started_groups : list Z) (record : list Z) : bool :=
  match fuel with
  | O => false
  | S fuel =>
      match record with
      | [] => match started_groups with [] => true | _ => false end
      | _ =>
          match ReadCanonicalVarint V32 record with
          | None => false
          | Some (tag, record) =>
              let field_number := GetTagFieldNumber tag in
              let wire := GetTagWireType tag in
              if field_number =? 0 then false
              else if wire =? wVarint then
                match SkipVarintArray V64 true record with
                | O => false
                | n => is_proto_message fuel started_groups (skipn n record)
                end
              else if wire =? wFixed32 then
                if zlen record <? 4 then false else is_proto_message fuel started_groups (zdrop 4 record)
              else if wire =? wFixed64 then
                if zlen record <? 8 then false else is_proto_message fuel started_groups (zdrop 8 record)
              else if wire =? wLengthDelimited then
                match ReadCanonicalVarint V32 record with
                | None => false
                | Some (length, record) =>
                    if zlen record <? length then false else is_proto_message fuel started_groups (zdrop length record)
                end
              else if wire =? wStartGroup then is_proto_message fuel (field_number :: started_groups) record
              else if wire =? wEndGroup then
                match started_groups with
                | [] => false
                | group :: started_groups => if group =? field_number then is_proto_message fuel started_groups record else false
                end
              else false
          end
      end
  end.
Definition IsProtoMessage (record : list Z) : bool := is_proto_message (S (length record)) [] record.

(** transpose_encoder.h:189-206 NodeId: parent_message_id and tag *)
Definition node_id : Type := Z * Z.
Definition node_eqb (a b : node_id) : bool := (fst a =? fst b) && (snd a =? snd b).
(** transpose_encoder.h:300-307 BufferWithMetadata, with the BufferType of its vector: 0 kVarint, 1 kFixed32, 2 kFixed64, 3 kString, 4 kNonProto *)
Record buffer := { b_type : Z; b_node : node_id; b_data : list Z }.
(** message_nodes_, tags_list_ (its NodeId and Subtype), encoded_tags_, data_, nonproto_lengths_writer_ *)
Record columns := {
  c_nodes : list node_id; c_tags : list (node_id * Z); c_encoded : list nat; c_buffers : list buffer; c_lengths : list Z }.
Definition no_columns : columns := {| c_nodes := []; c_tags := []; c_encoded := []; c_buffers := []; c_lengths := [] |}.

Fixpoint find_index {A} (f : A -> bool) (l : list A) : option nat :=
  match l with
  | [] => None
  | x :: l => if f x then Some O else match find_index f l with None => None | Some i => Some (S i) end
  end.
(** transpose_encoder.cc:347-352 GetNode: message_id of the node *)
Definition GetNode (id : node_id) (c : columns) : Z * columns :=
  match find_index (node_eqb id) (c_nodes c) with
  | Some i => (kRoot + 1 + Z.of_nat i, c)
  | None =>
      (kRoot + 1 + zlen (c_nodes c),
       {| c_nodes := c_nodes c ++ [id]; c_tags := c_tags c; c_encoded := c_encoded c; c_buffers := c_buffers c; c_lengths := c_lengths c |})
  end.
Definition tag_eqb (a b : node_id * Z) : bool := node_eqb (fst a) (fst b) && (snd a =? snd b).
(** transpose_encoder.cc:331-345 GetPosInTagsList *)
Definition GetPosInTagsList (id : node_id) (subtype : Z) (c : columns) : nat * columns :=
  match find_index (tag_eqb (id, subtype)) (c_tags c) with
  | Some i => (i, c)
  | None =>
      (length (c_tags c),
       {| c_nodes := c_nodes c; c_tags := c_tags c ++ [(id, subtype)]; c_encoded := c_encoded c; c_buffers := c_buffers c; c_lengths := c_lengths c |})
  end.
(** encoded_tags_.push_back(pos) *)
Definition push_pos (pos : nat) (c : columns) : columns :=
  {| c_nodes := c_nodes c; c_tags := c_tags c; c_encoded := c_encoded c ++ [pos]; c_buffers := c_buffers c; c_lengths := c_lengths c |}.
(** encoded_tags_.push_back(GetPosInTagsList(node, subtype)) *)
Definition push_tag (id : node_id) (subtype : Z) (c : columns) : columns :=
  let '(pos, c) := GetPosInTagsList id subtype c in push_pos pos c.
(** transpose_encoder.cc:319-329 GetBuffer, and writing [data] to the BackwardWriter, which prepends *)
Fixpoint prepend_to (type : Z) (id : node_id) (data : list Z) (buffers : list buffer) : list buffer :=
  match buffers with
  | [] => [{| b_type := type; b_node := id; b_data := data |}]
  | b :: buffers =>
      if node_eqb (b_node b) id then {| b_type := b_type b; b_node := b_node b; b_data := data ++ b_data b |} :: buffers
      else b :: prepend_to type id data buffers
  end.
Definition write_data (type : Z) (id : node_id) (data : list Z) (c : columns) : columns :=
  {| c_nodes := c_nodes c; c_tags := c_tags c; c_encoded := c_encoded c; c_buffers := prepend_to type id data (c_buffers c);
     c_lengths := c_lengths c |}.

(** transpose_encoder.h:309-314 MessageFrame; instead of parent_max_record_pos, what is left of the parent after the submessage *)
Record frame := { f_end : nat; f_parent : Z; f_after : list Z }.
(** transpose_encoder.cc:354-472 AddMessage: [record] is what is left of the current message (limited_record), [messages] is
    message_stack_, [groups] is group_stack_ *)
Fixpoint add_message (fuel : nat) (parent : Z) (record : list Z) (messages : list frame) (groups : list Z) (c : columns) : option columns :=
  match fuel with
  | O => None
  | S fuel =>
      match record with
      | [] =>
          match messages with
          | [] => match groups with [] => Some c | _ => None end
          | f :: messages => add_message fuel (f_parent f) (f_after f) messages groups (push_pos (f_end f) c)
          end
      | _ =>
          match ReadVarint V32 record with
          | None => None
          | Some (tag, record) =>
              let id := (parent, tag) in
              let '(message_id, c) := GetNode id c in
              let wire := GetTagWireType tag in
              if wire =? wVarint then
                match SkipVarintArray V64 false record with
                | O => None
                | n =>
                    let value := firstn n record in
                    let record := skipn n record in
                    let byte0 := nth 0 value 0 in
                    if byte0 <=? kMaxVarintInline then add_message fuel parent record messages groups (push_tag id (kVarintInline0 + byte0) c)
                    else
                      let c := push_tag id (kVarint1 + (Z.of_nat n - 1)) c in
                      add_message fuel parent record messages groups (write_data 0 id (map (fun byte => Z.land byte 127) value) c)
                end
              else if wire =? wFixed32 then
                if zlen record <? 4 then None
                else add_message fuel parent (zdrop 4 record) messages groups (write_data 1 id (ztake 4 record) (push_tag id kTrivial c))
              else if wire =? wFixed64 then
                if zlen record <? 8 then None
                else add_message fuel parent (zdrop 8 record) messages groups (write_data 2 id (ztake 8 record) (push_tag id kTrivial c))
              else if wire =? wLengthDelimited then
                match ReadVarint V32 record with
                | None => None
                | Some (length, value) =>
                    if zlen value <? length then None
                    else if (0 <? length) && (zlen messages + zlen groups <? kMaxRecursionDepth) && IsProtoMessage (ztake length value) then
                      let c := push_tag id kLengthDelimitedStartOfSubmessage c in
                      let '(end_pos, c) := GetPosInTagsList id kLengthDelimitedEndOfSubmessage c in
                      add_message fuel message_id (ztake length value)
                        ({| f_end := end_pos; f_parent := parent; f_after := zdrop length value |} :: messages) groups c
                    else
                      let c := push_tag id kLengthDelimitedString c in
                      let copied := ztake (zlen record - zlen value + length) record in
                      add_message fuel parent (zdrop length value) messages groups (write_data 3 id copied c)
                end
              else if wire =? wStartGroup then add_message fuel message_id record messages (parent :: groups) (push_tag id kTrivial c)
              else if wire =? wEndGroup then
                match groups with
                | [] => None
                | group :: groups => add_message fuel group record messages groups (push_tag id kTrivial c)
                end
              else None
          end
      end
  end.
(** Each iteration consumes at least one byte or ends a submessage, which took at least one byte. *)
Definition AddMessage (record : list Z) (c : columns) : option columns := add_message (2 * length record + 2) kRoot record [] [] c.

(** transpose_encoder.cc:275-317 AddRecordInternal, without the counters *)
Definition AddRecordInternal (record : list Z) (c : columns) : option columns :=
  if IsProtoMessage record then
    let '(_, c) := GetNode (kStartOfMessage, 0) c in
    AddMessage record (push_tag (kStartOfMessage, 0) kTrivial c)
  else
    let '(_, c) := GetNode (kNonProto, 0) c in
    let c := write_data 4 (kNonProto, 0) record (push_tag (kNonProto, 0) kTrivial c) in
    Some {| c_nodes := c_nodes c; c_tags := c_tags c; c_encoded := c_encoded c; c_buffers := c_buffers c;
            c_lengths := WriteVarint V64 (zlen record) ++ c_lengths c |}.
(** AddRecord for each record, transpose_encoder.cc:287-295: the counters *)
Fixpoint add_records (records : list (list Z)) (num_records decoded_data_size : Z) (c : columns) : option columns :=
  match records with
  | [] => Some c
  | record :: records =>
      if num_records =? kMaxNumRecords then None
      else if (2 ^ 64 - 1) - decoded_data_size <? zlen record then None
      else
        match AddRecordInternal record c with
        | None => None
        | Some c => add_records records (num_records + 1) (decoded_data_size + zlen record) c
        end
  end.

(** transpose_internal.h:77-101 HasDataBuffer, 103-127 HasSubtype; [None] is an unknown wire type *)
Definition HasDataBuffer (tag subtype : Z) : option bool :=
  let wire := GetTagWireType tag in
  if wire =? wVarint then Some (subtype <? kVarintInline0)
  else if (wire =? wFixed32) || (wire =? wFixed64) then Some true
  else if wire =? wLengthDelimited then Some (subtype =? kLengthDelimitedString)
  else if (wire =? wStartGroup) || (wire =? wEndGroup) then Some false
  else None.
Definition HasSubtype (tag : Z) : option bool :=
  let wire := GetTagWireType tag in
  if wire =? wVarint then Some true
  else if (wire =? wFixed32) || (wire =? wFixed64) || (wire =? wLengthDelimited) || (wire =? wStartGroup) || (wire =? wEndGroup) then Some false
  else None.

(** ** The state machine *)
(** transpose_encoder.h:265-274 DestInfo *)
Record dest_info := { d_pos : option nat; d_count : Z }.
(** transpose_encoder.h:276-298 EncodedTagInfo, except for NodeId and Subtype; dest_info is a flat_hash_map *)
Record tag_info := {
  t_dests : list (nat * dest_info); t_incoming : Z; t_state : option nat; t_noop : option nat; t_base : option nat }.
Definition new_tag_info : tag_info := {| t_dests := []; t_incoming := 0; t_state := None; t_noop := None; t_base := None |}.
(** transpose_encoder.h:217-233 StateInfo *)
Record state_info := { s_tag : option nat; s_base : option nat; s_source : option nat }.

(** Updating the element at a position; [None] is out of bounds *)
Fixpoint update {A} (i : nat) (f : A -> A) (l : list A) : option (list A) :=
  match l, i with
  | [], _ => None
  | x :: l, O => Some (f x :: l)
  | x :: l, S i => match update i f l with None => None | Some l => Some (x :: l) end
  end.
Definition set_dests (d : list (nat * dest_info)) (t : tag_info) :=
  {| t_dests := d; t_incoming := t_incoming t; t_state := t_state t; t_noop := t_noop t; t_base := t_base t |}.
Definition set_incoming (n : Z) (t : tag_info) :=
  {| t_dests := t_dests t; t_incoming := n; t_state := t_state t; t_noop := t_noop t; t_base := t_base t |}.
Definition set_state (p : nat) (t : tag_info) :=
  {| t_dests := t_dests t; t_incoming := t_incoming t; t_state := Some p; t_noop := t_noop t; t_base := t_base t |}.
Definition set_noop (p : nat) (t : tag_info) :=
  {| t_dests := t_dests t; t_incoming := t_incoming t; t_state := t_state t; t_noop := Some p; t_base := t_base t |}.
Definition set_base (p : nat) (t : tag_info) :=
  {| t_dests := t_dests t; t_incoming := t_incoming t; t_state := t_state t; t_noop := t_noop t; t_base := Some p |}.
(** dest_info[key], inserting a default value *)
Fixpoint update_dest (key : nat) (f : dest_info -> dest_info) (l : list (nat * dest_info)) : list (nat * dest_info) :=
  match l with
  | [] => [(key, f {| d_pos := None; d_count := 0 |})]
  | (k, d) :: l => if Nat.eqb k key then (k, f d) :: l else (k, d) :: update_dest key f l
  end.
Fixpoint find_dest (key : nat) (l : list (nat * dest_info)) : option dest_info :=
  match l with
  | [] => None
  | (k, d) :: l => if Nat.eqb k key then Some d else find_dest key l
  end.

(** transpose_encoder.cc:913-929: the transitions, in the order in which they are decoded *)
Fixpoint collect (prev : nat) (l : list nat) (tags : list tag_info) : option (list tag_info) :=
  match l with
  | [] => Some tags
  | pos :: l =>
      match update prev (fun t => set_dests (update_dest pos (fun d => {| d_pos := d_pos d; d_count := d_count d + 1 |}) (t_dests t)) t) tags with
      | None => None
      | Some tags =>
          match update pos (fun t => set_incoming (t_incoming t + 1) t) tags with
          | None => None
          | Some tags => collect pos l tags
          end
      end
  end.
(** transpose_encoder.cc:913-936 CollectTransitionStatistics; [sequence] is encoded_tags_ from the back to the front *)
Definition CollectTransitionStatistics (sequence : list nat) (tags : list tag_info) : option (list tag_info) :=
  match sequence with
  | [] => None
  | first :: rest =>
      match collect first rest tags with
      | None => None
      | Some tags => update first (fun t => if t_incoming t =? 0 then set_incoming 1 t else t) tags
      end
  end.

(** transpose_encoder.cc:138-167 PriorityQueueEntry: dest_index and num_transitions; dest_index kInvalidPos is the largest *)
Inductive dest_index := DTag (tag : nat) | DNoOp (index : nat) | DPublic.
Definition entry : Type := dest_index * Z.
(** DNoOp i is tags_list_.size() + i *)
Definition index_less (a b : dest_index) : bool :=
  match a, b with
  | DTag x, DTag y => Nat.ltb x y
  | DTag _, _ => true
  | DNoOp x, DNoOp y => Nat.ltb x y
  | DNoOp _, DPublic => true
  | _, _ => false
  end.
(** [a] comes out of the std::priority_queue before [b]: it is greater, which means fewer transitions, then a larger index *)
Definition entry_before (a b : entry) : bool := (snd a <? snd b) || ((snd a =? snd b) && index_less (fst b) (fst a)).
(** std::priority_queue as a sorted list *)
Fixpoint insert (e : entry) (queue : list entry) : list entry :=
  match queue with
  | [] => [e]
  | f :: queue => if entry_before e f then e :: f :: queue else f :: insert e queue
  end.

Section StateMachine.
(** The order of iteration over a flat_hash_map is unspecified: here an arbitrary function of the tag and of the contents, which theorems
    assume to return a permutation *)
Variable order : nat -> list (nat * dest_info) -> list (nat * dest_info).
Variable max_transition : nat.
Variable min_count_for_state : Z.

(** transpose_encoder.cc:1101-1116: marking transitions for private lists; kInListPos is 0 *)
Fixpoint mark_dests (dests : list (nat * dest_info)) (tags : list tag_info) : option (list tag_info) :=
  match dests with
  | [] => Some tags
  | (k, d) :: dests =>
      if min_count_for_state <=? d_count d then
        match update k (fun t => set_incoming (t_incoming t - d_count d) t) tags with
        | None => None
        | Some tags => mark_dests dests tags
        end
      else mark_dests dests tags
  end.
Fixpoint mark_all (n : nat) (id : nat) (tags : list tag_info) : option (list tag_info) :=
  match n with
  | O => Some tags
  | S n =>
      match nth_error tags id with
      | None => None
      | Some t =>
          match mark_dests (order id (t_dests t)) tags with
          | None => None
          | Some tags =>
              match update id (fun t => set_dests (map (fun kd : nat * dest_info => let (k, d) := kd in
                         if min_count_for_state <=? d_count d then (k, {| d_pos := Some O; d_count := d_count d |}) else (k, d)) (t_dests t)) t) tags with
              | None => None
              | Some tags => mark_all n (S id) tags
              end
          end
      end
  end.

(** transpose_encoder.cc:1151-1170: which destinations are put on the private list; the queue, the number of excluded transitions, the last
    excluded destination *)
Fixpoint choose_dests (dests : list (nat * dest_info)) (queue : list entry) (excluded : Z) (excluded_state : entry) (tags : list tag_info)
    : option (list entry * Z * entry * list tag_info) :=
  match dests with
  | [] => Some (queue, excluded, excluded_state, tags)
  | (k, d) :: dests =>
      match nth_error tags k with
      | None => None
      | Some t =>
          let in_list := match d_pos d with Some O => true | _ => false end in
          if in_list || (d_count d =? t_incoming t) then
            let queue := insert (DTag k, d_count d) queue in
            if in_list then choose_dests dests queue excluded excluded_state tags
            else
              match update k (fun t => set_incoming (t_incoming t - d_count d) t) tags with
              | None => None
              | Some tags => choose_dests dests queue excluded excluded_state tags
              end
          else choose_dests dests queue (excluded + d_count d) (DTag k, d_count d) tags
      end
  end.

(** transpose_encoder.cc:1213-1217, 1269-1273: canonical_source of the states of a block *)
Fixpoint set_sources (n : nat) (source : nat) (states : list state_info) : list state_info :=
  match n, states with
  | S n, s :: states => {| s_tag := s_tag s; s_base := s_base s; s_source := Some source |} :: set_sources n source states
  | _, _ => states
  end.
Fixpoint set_block_sources (skip : nat) (source : nat) (states : list state_info) : list state_info :=
  match skip, states with
  | S skip, s :: states => s :: set_block_sources skip source states
  | _, _ => set_sources (S max_transition) source states
  end.
(** The states made so far: [p_tail] are the states from the position [p_pos] (prev_state) on.  [p_tags] is tags_list_, [p_noops] is
    public_list_noops *)
Record partial := {
  p_pos : nat; p_tail : list state_info; p_tags : list tag_info; p_noops : list (nat * nat); p_bases : list nat }.
(** transpose_encoder.cc:1199-1223: the state for one entry of the queue, for the private list of [owner], or for the public list *)
Definition add_state (owner : option nat) (e : entry) (p : partial) : option partial :=
  match p_pos p with
  | O => None
  | S pos =>
      match fst e with
      | DPublic =>
          match owner with
          | None => None
          | Some tag_id =>
              match update tag_id (set_noop pos) (p_tags p) with
              | None => None
              | Some tags =>
                  Some {| p_pos := pos; p_tail := {| s_tag := None; s_base := None; s_source := None |} :: p_tail p; p_tags := tags;
                          p_noops := p_noops p ++ [(tag_id, pos)]; p_bases := p_bases p |}
              end
          end
      | DNoOp i =>
          match nth_error (p_bases p) i with
          | None => None
          | Some base =>
              let tail := {| s_tag := None; s_base := Some base; s_source := None |} :: p_tail p in
              if Nat.ltb base pos then None
              else Some {| p_pos := pos; p_tail := set_block_sources (base - pos) pos tail; p_tags := p_tags p; p_noops := p_noops p;
                           p_bases := p_bases p |}
          end
      | DTag tag =>
          let tags :=
            match owner with
            | Some tag_id =>
                update tag_id (fun t => set_dests (update_dest tag (fun d => {| d_pos := Some pos; d_count := d_count d |}) (t_dests t)) t) (p_tags p)
            | None => update tag (set_state pos) (p_tags p)
            end in
          match tags with
          | None => None
          | Some tags =>
              Some {| p_pos := pos; p_tail := {| s_tag := Some tag; s_base := None; s_source := None |} :: p_tail p; p_tags := tags;
                      p_noops := p_noops p; p_bases := p_bases p |}
          end
      end
  end.
(** transpose_encoder.cc:1196-1226: one block; the sum of the transitions is assumed to be less than 2^32 *)
Fixpoint fill_block (n : nat) (owner : option nat) (weight : Z) (queue : list entry) (p : partial) : option (Z * list entry * partial) :=
  match n with
  | O => Some (weight, queue, p)
  | S n =>
      match queue with
      | [] => None
      | e :: queue =>
          match add_state owner e p with
          | None => None
          | Some p => fill_block n owner (weight + snd e) queue p
          end
      end
  end.
(** transpose_encoder.cc:1193-1236: blocks from the last to the first *)
Fixpoint fill_blocks (fuel : nat) (block_size : nat) (owner : option nat) (queue : list entry) (p : partial) : option partial :=
  match fuel with
  | O => None
  | S fuel =>
      match fill_block block_size owner 0 queue p with
      | None => None
      | Some (weight, queue, p) =>
          match queue with
          | [] => Some p
          | _ =>
              fill_blocks fuel (S max_transition) owner (insert (DNoOp (length (p_bases p)), weight) queue)
                {| p_pos := p_pos p; p_tail := p_tail p; p_tags := p_tags p; p_noops := p_noops p; p_bases := p_bases p ++ [p_pos p] |}
          end
      end
  end.
(** transpose_encoder.cc:1180-1236, 1251-1289: the states for the non-empty [queue] after the states [machine].
    Simplification: that all states have been filled is checked here, not in the code *)
Definition create_list (owner : option nat) (queue : list entry) (machine : list state_info) (tags : list tag_info) (noops : list (nat * nat))
    : option (list state_info * list tag_info * list (nat * nat)) :=
  let num_states := length queue in
  let noop_nodes := if Nat.leb num_states (S max_transition) then O else Nat.div (num_states - 2) max_transition in
  let num_states := (num_states + noop_nodes)%nat in
  let block_size := S (Nat.modulo (num_states - 1) (S max_transition)) in
  match fill_blocks (S (length queue)) block_size owner queue
          {| p_pos := (length machine + num_states)%nat; p_tail := []; p_tags := tags; p_noops := noops; p_bases := [] |} with
  | None => None
  | Some p => if Nat.eqb (p_pos p) (length machine) then Some (machine ++ p_tail p, p_tags p, p_noops p) else None
  end.
(** transpose_encoder.cc:1139-1237: private lists of [n] tags from [tag_id] on *)
Fixpoint private_lists (n : nat) (tag_id : nat) (machine : list state_info) (tags : list tag_info) (noops : list (nat * nat))
    : option (list state_info * list tag_info * list (nat * nat)) :=
  match n with
  | O => Some (machine, tags, noops)
  | S n =>
      match nth_error tags tag_id with
      | None => None
      | Some t =>
          let sz := length (t_dests t) in
          match choose_dests (order tag_id (t_dests t)) [] 0 (DTag O, 0) tags with
          | None => None
          | Some (queue, excluded, excluded_state, tags) =>
              match queue with
              | [] => private_lists n (S tag_id) machine tags noops
              | _ =>
                  let with_single :=
                    if Nat.eqb (length queue + 1) sz then
                      match fst excluded_state with
                      | DTag k =>
                          match update k (fun t => set_incoming (t_incoming t - snd excluded_state) t) tags with
                          | None => None
                          | Some tags => Some (insert excluded_state queue, tags)
                          end
                      | _ => None
                      end
                    else Some (queue, tags) in
                  match with_single with
                  | None => None
                  | Some (queue, tags) =>
                      let queue := if Nat.eqb (length queue) sz then queue else insert (DPublic, excluded) queue in
                      match update tag_id (set_base (length machine)) tags with
                      | None => None
                      | Some tags =>
                          match create_list (Some tag_id) queue machine tags noops with
                          | None => None
                          | Some (machine, tags, noops) => private_lists n (S tag_id) machine tags noops
                          end
                      end
                  end
              end
          end
      end
  end.
(** transpose_encoder.cc:1242-1247 *)
Fixpoint public_queue (i : nat) (tags : list tag_info) (queue : list entry) : list entry :=
  match tags with
  | [] => queue
  | t :: tags => public_queue (S i) tags (if t_incoming t =? 0 then queue else insert (DTag i, t_incoming t) queue)
  end.

Definition source_of (machine : list state_info) (pos : nat) : option (option nat) :=
  match nth_error machine pos with None => None | Some s => Some (s_source s) end.
Definition base_of (machine : list state_info) (pos : nat) : option nat :=
  match nth_error machine pos with None => None | Some s => s_base s end.
(** transpose_encoder.cc:984-1019, 1045-1072: canonical_source of [pos], with the assertions *)
Definition checked_source (machine : list state_info) (pos : nat) : option nat :=
  match source_of machine pos with
  | Some (Some cs) =>
      match base_of machine cs with
      | Some base => if Nat.leb base pos && Nat.leb (pos - base) max_transition then Some cs else None
      | None => None
      end
  | _ => None
  end.
Definition min_opt (a : option nat) (b : nat) : option nat := match a with None => Some b | Some a => Some (Nat.min a b) end.
(** transpose_encoder.cc:984-1020: the base and the minimal position, extended to reach [pos] *)
Fixpoint extend_base (fuel : nat) (machine : list state_info) (public_list_base : nat) (base min_pos : option nat) (pos : nat)
    : option (option nat * option nat) :=
  match fuel with
  | O => None
  | S fuel =>
      let block (cs : option nat) : option nat := match cs with None => Some public_list_base | Some cs => base_of machine cs end in
      match base with
      | None =>
          match source_of machine pos with
          | None => None
          | Some cs => extend_base fuel machine public_list_base (block cs) min_pos pos
          end
      | Some b =>
          if Nat.ltb pos b then
            match source_of machine b with
            | Some (Some noop) =>
                match source_of machine noop with
                | None => None
                | Some cs => extend_base fuel machine public_list_base (block cs) (min_opt min_pos noop) pos
                end
            | _ => None
            end
          else if Nat.ltb max_transition (pos - b) then
            match checked_source machine pos with
            | None => None
            | Some cs => extend_base fuel machine public_list_base base min_pos cs
            end
          else Some (base, min_opt min_pos pos)
      end
  end.
(** transpose_encoder.cc:959-1021, 1036-1073: the base for all destinations in the public list *)
Fixpoint min_pos_of (machine : list state_info) (tags : list tag_info) (public_list_base : nat) (base min_pos : option nat)
    (dests : list (nat * dest_info)) : option (option nat) :=
  match dests with
  | [] => Some min_pos
  | (k, d) :: dests =>
      match d_pos d with
      | Some _ => min_pos_of machine tags public_list_base base min_pos dests
      | None =>
          match nth_error tags k with
          | None => None
          | Some t =>
              match t_state t with
              | None => None
              | Some pos =>
                  match extend_base (2 * length machine + 3) machine public_list_base base min_pos pos with
                  | None => None
                  | Some (base, min_pos) => min_pos_of machine tags public_list_base base min_pos dests
                  end
              end
          end
      end
  end.
(** transpose_encoder.cc:953-1025 *)
Fixpoint noop_bases (noops : list (nat * nat)) (tags : list tag_info) (public_list_base : nat) (machine : list state_info) : option (list state_info) :=
  match noops with
  | [] => Some machine
  | (tag, pos) :: noops =>
      match nth_error tags tag with
      | None => None
      | Some t =>
          match min_pos_of machine tags public_list_base None None (order tag (t_dests t)) with
          | Some (Some min_pos) =>
              match update pos (fun s => {| s_tag := s_tag s; s_base := Some min_pos; s_source := s_source s |}) machine with
              | None => None
              | Some machine => noop_bases noops tags public_list_base machine
              end
          | _ => None
          end
      end
  end.
(** transpose_encoder.cc:1027-1075 *)
Fixpoint tag_bases (n : nat) (id : nat) (machine : list state_info) (public_list_base : nat) (tags : list tag_info) : option (list tag_info) :=
  match n with
  | O => Some tags
  | S n =>
      match nth_error tags id with
      | None => None
      | Some t =>
          match t_base t with
          | Some _ => tag_bases n (S id) machine public_list_base tags
          | None =>
              match min_pos_of machine tags public_list_base None None (order id (t_dests t)) with
              | None => None
              | Some None => tag_bases n (S id) machine public_list_base tags
              | Some (Some min_pos) =>
                  match update id (set_base min_pos) tags with
                  | None => None
                  | Some tags => tag_bases n (S id) machine public_list_base tags
                  end
              end
          end
      end
  end.
(** transpose_encoder.cc:1079-1298 CreateStateMachine; [sequence] is encoded_tags_ from the back to the front, [num_tags] is the size of
    tags_list_ *)
Definition CreateStateMachine (sequence : list nat) (num_tags : nat) : option (list state_info * list tag_info) :=
  let tags := repeat new_tag_info num_tags in
  match sequence with
  | [] => Some ([{| s_tag := None; s_base := Some O; s_source := None |}], tags)
  | _ =>
      match CollectTransitionStatistics sequence tags with
      | None => None
      | Some tags =>
          match mark_all num_tags 0 tags with
          | None => None
          | Some tags =>
              match private_lists num_tags 0 [] tags [] with
              | None => None
              | Some (machine, tags, noops) =>
                  let public_list_base := length machine in
                  let queue := public_queue 0 tags [] in
                  let lists :=
                    match queue with
                    | [] => Some (machine, tags, noops)
                    | _ => create_list None queue machine tags noops
                    end in
                  match lists with
                  | None => None
                  | Some (machine, tags, noops) =>
                      match noop_bases noops tags public_list_base machine with
                      | None => None
                      | Some machine =>
                          match tag_bases num_tags 0 machine public_list_base tags with
                          | None => None
                          | Some tags => Some (machine, tags)
                          end
                      end
                  end
              end
          end
      end
  end.

(** ** Transitions *)
(** transpose_encoder.cc:816 kWriteBufSize *)
Definition kWriteBufSize : nat := 32.
(** transpose_encoder.cc:843-860, 885-899: the transitions from [base] to [pos], with at most [fuel] of them *)
Fixpoint path (fuel : nat) (machine : list state_info) (base pos : nat) (written : list nat) : option (list nat) :=
  match fuel with
  | O => None
  | S fuel =>
      if Nat.ltb pos base || Nat.ltb max_transition (pos - base) then
        match checked_source machine pos with
        | None => None
        | Some cs =>
            match base_of machine cs with
            | None => None
            | Some cs_base => path fuel machine base cs ((pos - cs_base)%nat :: written)
            end
        end
      else Some ((pos - base)%nat :: written)
  end.
(** transpose_encoder.cc:819-905: the transitions from the tag [prev] to the tags [rest], before they are merged to bytes *)
Definition transition (machine : list state_info) (tags : list tag_info) (prev tag : nat) : option (list nat) :=
  match nth_error tags prev with
  | None => None
  | Some t =>
      if Nat.eqb (length (t_dests t)) 1 then
        match t_base t with
        | None => None
        | Some base =>
            match nth_error machine base with
            | Some {| s_tag := Some tag' |} => if Nat.eqb tag' tag then Some [] else None
            | _ => None
            end
        end
      else
        let private := match find_dest tag (t_dests t) with Some d => d_pos d | None => None end in
        match private with
        | Some pos =>
            match t_base t with None => None | Some base => if Nat.ltb pos (length machine) then path kWriteBufSize machine base pos [] else None end
        | None =>
            match nth_error tags tag with
            | None => None
            | Some target =>
                match t_state target with
                | None => None
                | Some pos =>
                    if negb (Nat.ltb pos (length machine)) then None
                    else
                      match t_base t, t_noop t with
                      | None, _ => None
                      | Some base, None => path kWriteBufSize machine base pos []
                      | Some base, Some noop =>
                          match path kWriteBufSize machine base noop [], base_of machine noop with
                          | Some to_noop, Some noop_base =>
                              match path kWriteBufSize machine noop_base pos [] with
                              | None => None
                              | Some from_noop => Some (to_noop ++ from_noop)
                              end
                          | _, _ => None
                          end
                      end
                end
            end
        end
  end.
Fixpoint transitions (machine : list state_info) (tags : list tag_info) (prev : nat) (rest : list nat) : option (list nat) :=
  match rest with
  | [] => Some []
  | tag :: rest =>
      match transition machine tags prev tag, transitions machine tags tag rest with
      | Some a, Some b => Some (a ++ b)
      | _, _ => None
      end
  end.
(** transpose_encoder.cc:862-873, 901-912, 919-924: merging, with last_transition *)
Fixpoint merge (last_transition : option Z) (l : list nat) : list Z :=
  match l with
  | [] => match last_transition with None => [] | Some b => [b] end
  | offset :: l =>
      match last_transition with
      | Some b => if Nat.eqb offset 0 && (Z.land b 3 <? 3) then merge (Some (b + 1)) l else b :: merge (Some (Z.shiftl (Z.of_nat offset) 2)) l
      | None => merge (Some (Z.shiftl (Z.of_nat offset) 2)) l
      end
  end.
(** transpose_encoder.cc:799-925 WriteTransitions *)
Definition WriteTransitions (machine : list state_info) (tags : list tag_info) (sequence : list nat) : option (list Z) :=
  match sequence with
  | [] => Some []
  | first :: rest =>
      match transitions machine tags first rest with
      | None => None
      | Some offsets => Some (merge None offsets)
      end
  end.
End StateMachine.

(** ** Serialization *)
(** transpose_encoder.cc:1301, 1304 *)
Definition kMaxTransition : nat := 63.
Definition kMinCountForState : Z := 10.
(** transpose_encoder.h: compressor_options_.compression_type(), bucket_size_ *)
Record transpose_options := { o_ct : Z; o_bucket_size : Z }.
(** transpose_encoder.cc:202-209 *)
Definition effective_bucket_size (o : transpose_options) : Z := if o_ct o =? kNone then 2 ^ 64 - 1 else o_bucket_size o.

(** transpose_encoder.cc:510-520: std::sort by length, then by NodeId; NodeIds are unique *)
Definition buffer_less (a b : buffer) : bool :=
  (zlen (b_data a) <? zlen (b_data b)) ||
  ((zlen (b_data a) =? zlen (b_data b)) &&
   ((fst (b_node a) <? fst (b_node b)) || ((fst (b_node a) =? fst (b_node b)) && (snd (b_node a) <? snd (b_node b))))).
Fixpoint insert_buffer (b : buffer) (l : list buffer) : list buffer :=
  match l with
  | [] => [b]
  | c :: l => if buffer_less b c then b :: c :: l else c :: insert_buffer b l
  end.
Definition sort_buffers (l : list buffer) : list buffer := fold_right insert_buffer [] l.
Definition total_size (l : list buffer) : Z := fold_right (fun b n => zlen (b_data b) + n) 0 l.

(** transpose_encoder.cc:539-565: uncompressed_bucket_sizes, the last element first; [l] are the buffers from the last one *)
Fixpoint bucket_sizes (bucket_size : Z) (l : list buffer) (remaining current : Z) (done : list Z) : list Z :=
  match l with
  | [] => if 0 <? current then current :: done else done
  | b :: l =>
      let size := zlen (b_data b) in
      let flush := (0 <? current) && (bucket_size <=? current + size / 2) in
      let done := if flush then current :: done else done in
      let current := (if flush then 0 else current) + size in
      let remaining := remaining - size in
      if remaining <=? bucket_size / 2 then
        let current := current + remaining in
        if 0 <? current then current :: done else done
      else bucket_sizes bucket_size l remaining current done
  end.
(** What WriteBuffers has done: the current bucket (bucket_compressor.writer()), data_writer, compressed_bucket_sizes, buffer_sizes *)
Record written := { v_bucket : list Z; v_data : list Z; v_buckets : list Z; v_sizes : list Z }.

Section Encoding.
Variable compress : Z -> list Z -> list Z.
Variable order : nat -> list (nat * dest_info) -> list (nat * dest_info).

(** transpose_encoder.cc:482-492, 590-602: the bucket is compressed, unless it is empty *)
Definition flush_bucket (ct : Z) (v : written) : written :=
  match v_bucket v with
  | [] => v
  | bucket =>
      let data := Compressor_EncodeAndClose compress ct bucket in
      {| v_bucket := []; v_data := v_data v ++ data; v_buckets := v_buckets v ++ [zlen data]; v_sizes := v_sizes v |}
  end.
(** transpose_encoder.cc:474-503 AddBuffer *)
Definition AddBuffer (ct : Z) (new_bucket : bool) (data : list Z) (v : written) : written :=
  let v := if new_bucket then flush_bucket ct v else v in
  {| v_bucket := v_bucket v ++ data; v_data := v_data v; v_buckets := v_buckets v; v_sizes := v_sizes v ++ [zlen data] |}.
(** transpose_encoder.cc:567-591 *)
Fixpoint add_buffers (ct : Z) (l : list buffer) (buckets : list Z) (current : Z) (v : written) : option written :=
  match l with
  | [] => match buckets with [] => if current =? 0 then Some v else None | _ => None end
  | b :: l =>
      let add (new_bucket : bool) (buckets : list Z) (current : Z) : option written :=
        if current <? zlen (b_data b) then None
        else add_buffers ct l buckets (current - zlen (b_data b)) (AddBuffer ct new_bucket (b_data b) v) in
      if current =? 0 then match buckets with [] => None | size :: buckets => add true buckets size end
      else add false buckets current
  end.
(** transpose_encoder.cc:505-595: the buffers of one type, sorted *)
Definition buffers_of_type (type : Z) (c : columns) : list buffer := sort_buffers (filter (fun b => b_type b =? type) (c_buffers c)).
Definition add_type (o : transpose_options) (type : Z) (c : columns) (v : written) : option written :=
  let l := buffers_of_type type c in
  add_buffers (o_ct o) l (bucket_sizes (effective_bucket_size o) (rev l) (total_size l) 0 []) 0 v.
Fixpoint add_types (o : transpose_options) (types : list Z) (c : columns) (v : written) : option written :=
  match types with
  | [] => Some v
  | type :: types => match add_type o type c v with None => None | Some v => add_types o types c v end
  end.
Definition all_types : list Z := [0; 1; 2; 3; 4].
(** All buffers in the order of writing, without nonproto_lengths: this determines buffer_pos *)
Definition ordered_buffers (c : columns) : list buffer := flat_map (fun type => buffers_of_type type c) all_types.
Definition buffer_pos (c : columns) (id : node_id) : option nat := find_index (fun b => node_eqb (b_node b) id) (ordered_buffers c).
(** transpose_encoder.cc:505-640 WriteBuffers: what is written to header_writer and to data_writer *)
Definition WriteBuffers (o : transpose_options) (c : columns) : option (list Z * list Z) :=
  match add_types o all_types c {| v_bucket := []; v_data := []; v_buckets := []; v_sizes := [] |} with
  | None => None
  | Some v =>
      let v := match c_lengths c with [] => v | lengths => AddBuffer (o_ct o) true lengths v end in
      let v := flush_bucket (o_ct o) v in
      Some (WriteVarint V32 (zlen (v_buckets v)) ++ WriteVarint V32 (zlen (v_sizes v)) ++
            flat_map (WriteVarint V64) (v_buckets v) ++ flat_map (WriteVarint V64) (v_sizes v), v_data v)
  end.

(** transpose_encoder.cc:679-755: for one state the tag, the base, the subtypes and the buffer indices to write *)
Record state_fields := { w_tag : Z; w_base : Z; w_subtype : list Z; w_buffer : list Z }.
Definition node_fields (c : columns) (id : node_id) (subtype : Z) : option (Z * list Z * list Z) :=
  let '(parent, tag) := id in
  let buffer_of (id : node_id) := match buffer_pos c id with None => None | Some i => Some [Z.of_nat i] end in
  if negb (tag =? 0) then
    let is_string := GetTagWireType tag =? wLengthDelimited in
    if is_string && (subtype =? kLengthDelimitedStartOfSubmessage) then Some (kStartOfSubmessage, [], [])
    else if is_string && (subtype =? kLengthDelimitedEndOfSubmessage) then Some (tag + (wSubmessage - wLengthDelimited), [], [])
    else
      match HasSubtype tag, HasDataBuffer tag subtype with
      | Some has_subtype, Some has_buffer =>
          let subtypes := if has_subtype then [subtype] else [] in
          if has_buffer then match buffer_of id with None => None | Some i => Some (tag, subtypes, i) end
          else Some (tag, subtypes, [])
      | _, _ => None
      end
  else if parent =? kNonProto then match buffer_of (kNonProto, 0) with None => None | Some i => Some (parent, [], i) end
  else if parent =? kStartOfMessage then Some (parent, [], [])
  else None.
Definition state_to_write (c : columns) (tags : list tag_info) (size : nat) (s : state_info) : option state_fields :=
  match s_tag s with
  | None =>
      match s_base s with
      | None => None
      | Some base => Some {| w_tag := kNoOp; w_base := Z.of_nat base; w_subtype := []; w_buffer := [] |}
      end
  | Some tag =>
      match nth_error (c_tags c) tag, nth_error tags tag with
      | Some (id, subtype), Some t =>
          match node_fields c id subtype with
          | None => None
          | Some (tag, subtypes, buffers) =>
              let base :=
                match t_base t with
                | None => 0
                | Some base => Z.of_nat base + (if Nat.eqb (length (t_dests t)) 1 then Z.of_nat size else 0)
                end in
              Some {| w_tag := tag; w_base := base; w_subtype := subtypes; w_buffer := buffers |}
          end
      | _, _ => None
      end
  end.
Fixpoint states_to_write (c : columns) (tags : list tag_info) (size : nat) (l : list state_info) : option (list state_fields) :=
  match l with
  | [] => Some []
  | s :: l =>
      match state_to_write c tags size s, states_to_write c tags size l with
      | Some a, Some b => Some (a :: b)
      | _, _ => None
      end
  end.
(** transpose_encoder.cc:645-657: the last tag gets a second destination *)
Definition add_fake_dest (sequence : list nat) (tags : list tag_info) : option (list tag_info) :=
  match sequence with
  | [] => Some tags
  | _ =>
      update (last sequence O) (fun t =>
        match t_dests t with
        | [(key, _)] => set_dests (update_dest (S key) (fun d => d) (t_dests t)) t
        | _ => t
        end) tags
  end.
(** transpose_encoder.cc:642-797 WriteStatesAndData: what is written to header_writer and to data_writer.  [None] also if a position does
    not fit in uint32_t with the mark of implicit transitions *)
Definition WriteStatesAndData (o : transpose_options) (c : columns) (sequence : list nat) (machine : list state_info) (tags : list tag_info)
    : option (list Z * list Z) :=
  if 2 ^ 31 <=? zlen machine then None
  else
    match add_fake_dest sequence tags, WriteBuffers o c with
    | Some tags, Some (header, data) =>
        match states_to_write c tags (length machine) machine with
        | None => None
        | Some fields =>
            let first_tag :=
              match sequence with
              | [] => Some O
              | first :: _ => find_index (fun s => match s_tag s with Some tag => Nat.eqb tag first | None => false end) machine
              end in
            match first_tag, WriteTransitions kMaxTransition machine tags sequence with
            | Some first_tag, Some transitions =>
                Some (header ++ WriteVarint V32 (zlen machine) ++
                      flat_map (fun f => WriteVarint V32 (w_tag f)) fields ++ flat_map (fun f => WriteVarint V32 (w_base f)) fields ++
                      flat_map w_subtype fields ++ flat_map (fun f => flat_map (WriteVarint V32) (w_buffer f)) fields ++
                      WriteVarint V32 (Z.of_nat first_tag),
                      data ++ Compressor_EncodeAndClose compress (o_ct o) transitions)
            | _, _ => None
            end
        end
    | _, _ => None
    end.
(** transpose_encoder.cc:1306-1385 EncodeAndClose of an encoder to which [records] were added *)
Definition TransposeEncode (o : transpose_options) (records : list (list Z)) : option (list Z) :=
  match add_records records 0 0 no_columns with
  | None => None
  | Some c =>
      let sequence := rev (c_encoded c) in
      match CreateStateMachine order kMaxTransition kMinCountForState sequence (length (c_tags c)) with
      | None => None
      | Some (machine, tags) =>
          match WriteStatesAndData o c sequence machine tags with
          | None => None
          | Some (header, data) => Some (byte_cast (o_ct o) :: Compressor_LengthPrefixed compress (o_ct o) header ++ data)
          end
      end
  end.
End Encoding.
