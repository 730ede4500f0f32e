(** Model of riegeli/chunk_encoding/{transpose_decoder.h,transpose_decoder.cc} without projection (FieldProjection::All()).

    [None] is a failure of decoding. The result of a loop of the model out of fuel is a parameter [out], which theorems show not to matter
    (in TransposeDecode it is [None]).
    Simplifications: as in Model/SimpleChunk.v, decompression is eager; the types of callbacks which differ only in the length of the tag
    are one constructor with the bytes of the tag; sizes of vectors do not exceed max_size(). *)
From Verif Require Import Base.Bytes Model.Endian Model.Varint Model.SimpleChunk Model.TransposeEncoder.

(** transpose_decoder.cc:90-106 ValidTag *)
Definition ValidTag (tag : Z) : bool :=
  match HasSubtype tag with Some _ => 8 <=? tag | None => false end.
(** transpose_decoder.cc:108-145 CallbackType with tag_data, and the index of the buffer: 386-410 StateMachineNode *)
Inductive callback :=
| CNoOp | CMessageStart | CSubmessageStart | CSubmessageEnd (tag : list Z) | CNonProto (buffer : nat) | CFailure
| CCopyTag (data : list Z) | CVarint (tag : list Z) (length : Z) (buffer : nat) | CFixed (tag : list Z) (length : Z) (buffer : nat)
| CString (tag : list Z) (buffer : nat).
Record node := { n_callback : callback; n_implicit : bool; n_next : nat }.
Record context := {
  x_buffers : list (list Z);      (* buffers *)
  x_lengths : option nat;         (* which buffer is nonproto_lengths *)
  x_nodes : list node;            (* state_machine_nodes *)
  x_first : nat;                  (* first_node *)
  x_transitions : list Z }.       (* transitions, decompressed *)

(** [n] varints *)
Fixpoint read_varints (t : vtype) (n : nat) (src : list Z) : option (list Z * list Z) :=
  match n with
  | O => Some ([], src)
  | S n =>
      match ReadVarint t src with
      | None => None
      | Some (v, src) =>
          match read_varints t n src with
          | None => None
          | Some (l, src) => Some (v :: l, src)
          end
      end
  end.

Section Decoding.
Variable decompress : Z -> list Z -> option (list Z).

(** transpose_decoder.cc:818-844: reading the buckets, in the order of reading their lengths from the header *)
Fixpoint read_buckets (ct : Z) (n : nat) (header src : list Z) : option (list (list Z) * list Z * list Z) :=
  match n with
  | O => Some ([], header, src)
  | S n =>
      match ReadVarint V64 header with
      | None => None
      | Some (bucket_length, header) =>
          if zlen src <? bucket_length then None
          else
            match Decompressor decompress ct (ztake bucket_length src) with
            | None => None
            | Some bucket =>
                match read_buckets ct n header (zdrop bucket_length src) with
                | None => None
                | Some (buckets, header, src) => Some (bucket :: buckets, header, src)
                end
            end
      end
  end.
(** transpose_decoder.cc:862-870: going to the next bucket at the end of a bucket, unless it is the last one *)
Fixpoint next_bucket (bucket : list Z) (buckets : list (list Z)) : list Z * list (list Z) :=
  match bucket, buckets with
  | [], b :: buckets => next_bucket b buckets
  | _, _ => (bucket, buckets)
  end.
(** transpose_decoder.cc:846-879: [bucket] is the rest of the current bucket *)
Fixpoint read_buffers (n : nat) (header bucket : list Z) (buckets : list (list Z)) : option (list (list Z) * list Z) :=
  match n with
  | O => match buckets, bucket with [], [] => Some ([], header) | _, _ => None end
  | S n =>
      match ReadVarint V64 header with
      | None => None
      | Some (buffer_length, header) =>
          if zlen bucket <? buffer_length then None
          else
            let '(rest, buckets) := next_bucket (zdrop buffer_length bucket) buckets in
            match read_buffers n header rest buckets with
            | None => None
            | Some (buffers, header) => Some (ztake buffer_length bucket :: buffers, header)
            end
      end
  end.
(** transpose_decoder.cc:783-880 ParseBuffers: the buffers, and what is left of the header and of the source *)
Definition ParseBuffers (ct : Z) (header src : list Z) : option (list (list Z) * list Z * list Z) :=
  match ReadVarint V32 header with
  | None => None
  | Some (num_buckets, header) =>
      match ReadVarint V32 header with
      | None => None
      | Some (num_buffers, header) =>
          if num_buckets =? 0 then if num_buffers =? 0 then Some ([], header, src) else None
          else
            match read_buckets ct (Z.to_nat num_buckets) header src with
            | Some (bucket :: buckets, header, src) =>
                match read_buffers (Z.to_nat num_buffers) header bucket buckets with
                | None => None
                | Some (buffers, header) => Some (buffers, header, src)
                end
            | _ => None
            end
      end
  end.

(** transpose_decoder.cc:283-330 GetCallbackType for FieldIncluded::kYes without projection, 182-193 GetVarintCallbackType,
    225-243 GetStringCallbackType; [None] is CallbackType::kUnknown.  tag_data: 712-719 *)
Definition GetCallbackType (tag subtype : Z) (buffer : nat) : option callback :=
  let data := WriteVarint V32 tag in
  let wire := GetTagWireType tag in
  if wire =? wVarint then
    if kVarintInlineMax <? subtype then None
    else if kVarintInline0 <=? subtype then Some (CCopyTag (data ++ [subtype - kVarintInline0]))
    else Some (CVarint data (subtype - kVarint1 + 1) buffer)
  else if wire =? wFixed32 then Some (CFixed data 4 buffer)
  else if wire =? wFixed64 then Some (CFixed data 8 buffer)
  else if wire =? wLengthDelimited then
    if subtype =? kLengthDelimitedString then Some (CString data buffer)
    else if subtype =? kLengthDelimitedEndOfSubmessage then Some (CSubmessageEnd data)
    else None
  else if (wire =? wStartGroup) || (wire =? wEndGroup) then Some (CCopyTag data)
  else None.
(** transpose_decoder.cc:597-604, 690-698: a buffer index *)
Definition read_buffer_index (num_buffers : nat) (header : list Z) : option (nat * list Z) :=
  match ReadVarint V32 header with
  | None => None
  | Some (i, header) => if Z.of_nat num_buffers <=? i then None else Some (Z.to_nat i, header)
  end.
(** transpose_decoder.cc:585-721: the callback of a node; what is left of the subtypes and of the header *)
Definition parse_callback (num_buffers : nat) (tag : Z) (subtypes header : list Z) : option (callback * list Z * list Z) :=
  if tag =? kNoOp then Some (CNoOp, subtypes, header)
  else if tag =? kNonProto then
    match read_buffer_index num_buffers header with
    | None => None
    | Some (buffer, header) => Some (CNonProto buffer, subtypes, header)
    end
  else if tag =? kStartOfMessage then Some (CMessageStart, subtypes, header)
  else if tag =? kStartOfSubmessage then Some (CSubmessageStart, subtypes, header)
  else
    let submessage := GetTagWireType tag =? wSubmessage in
    let subtype := if submessage then kLengthDelimitedEndOfSubmessage else kTrivial in
    let tag := if submessage then tag - (wSubmessage - wLengthDelimited) else tag in
    if negb (ValidTag tag) then None
    else
      match (match HasSubtype tag with
             | Some true => match subtypes with [] => None | s :: subtypes => Some (s, subtypes) end
             | _ => Some (subtype, subtypes)
             end) with
      | None => None
      | Some (subtype, subtypes) =>
          match (match HasDataBuffer tag subtype with Some true => read_buffer_index num_buffers header | _ => Some (O, header) end) with
          | None => None
          | Some (buffer, header) =>
              match GetCallbackType tag subtype buffer with
              | None => None
              | Some callback => Some (callback, subtypes, header)
              end
          end
      end.
(** transpose_decoder.cc:577-738: the nodes; [size] is state_machine_size *)
Fixpoint parse_nodes (num_buffers : nat) (size : Z) (tags nexts subtypes header : list Z) : option (list node * list Z) :=
  match tags, nexts with
  | tag :: tags, next :: nexts =>
      match parse_callback num_buffers tag subtypes header with
      | None => None
      | Some (callback, subtypes, header) =>
          let implicit := size <=? next in
          let next := if implicit then next - size else next in
          if size <=? next then None
          else
            match parse_nodes num_buffers size tags nexts subtypes header with
            | None => None
            | Some (nodes, header) => Some ({| n_callback := callback; n_implicit := implicit; n_next := Z.to_nat next |} :: nodes, header)
            end
      end
  | _, _ => Some ([], header)
  end.
Definition is_nonproto (n : node) : bool := match n_callback n with CNonProto _ => true | _ => false end.

(** transpose_decoder.cc:1012-1022: following implicit transitions from [i]; [ids] is implicit_loop_ids *)
Fixpoint follow_implicit (out : option (bool * list nat)) (fuel : nat) (nodes : list node) (loop_id i : nat) (ids : list nat) : option (bool * list nat) :=
  match fuel with
  | O => out
  | S fuel =>
      match nth_error nodes i with
      | None => None
      | Some n =>
          if n_implicit n then
            let j := n_next n in
            match nth_error ids j with
            | None => None
            | Some id =>
                if Nat.eqb id loop_id then Some (true, ids)
                else if negb (Nat.eqb id 0) then Some (false, ids)
                else
                  match update j (fun _ => loop_id) ids with
                  | None => None
                  | Some ids => follow_implicit out fuel nodes loop_id j ids
                  end
            end
          else Some (false, ids)
      end
  end.
(** transpose_decoder.cc:1005-1025 ContainsImplicitLoop, [n] nodes from [i] on *)
Fixpoint implicit_loop (out : option (bool * list nat)) (n i loop_id : nat) (nodes : list node) (ids : list nat) : option bool :=
  match n with
  | O => Some false
  | S n =>
      match nth_error ids i with
      | None => None
      | Some (S _) => implicit_loop out n (S i) loop_id nodes ids
      | Some O =>
          match update i (fun _ => loop_id) ids with
          | None => None
          | Some ids =>
              match follow_implicit out (S (length nodes)) nodes loop_id i ids with
              | None => None
              | Some (true, _) => Some true
              | Some (false, ids) => implicit_loop out n (S i) (S loop_id) nodes ids
              end
          end
      end
  end.
Definition ContainsImplicitLoop (out : option (bool * list nat)) (nodes : list node) : option bool := implicit_loop out (length nodes) 0 1 nodes (repeat O (length nodes)).
(** transpose_decoder.cc:757-760: a failure node *)
Definition failure_node : node := {| n_callback := CFailure; n_implicit := false; n_next := O |}.

(** transpose_decoder.cc:464-781 Parse *)
Definition Parse (out : option (bool * list nat)) (src : list Z) : option context :=
  match src with
  | [] => None
  | ct :: src =>
      match ReadVarint V64 src with
      | None => None
      | Some (header_size, src) =>
          if zlen src <? header_size then None
          else
            match Decompressor decompress ct (ztake header_size src) with
            | None => None
            | Some header =>
                match ParseBuffers ct header (zdrop header_size src) with
                | None => None
                | Some (buffers, header, src) =>
                    match ReadVarint V32 header with
                    | None => None
                    | Some (size, header) =>
                        match read_varints V32 (Z.to_nat size) header with
                        | None => None
                        | Some (tags, header) =>
                            match read_varints V32 (Z.to_nat size) header with
                            | None => None
                            | Some (nexts, header) =>
                                let num_subtypes :=
                                  zlen (filter (fun tag => ValidTag tag && match HasSubtype tag with Some b => b | None => false end) tags) in
                                if zlen header <? num_subtypes then None
                                else
                                  match parse_nodes (length buffers) size tags nexts (ztake num_subtypes header) (zdrop num_subtypes header) with
                                  | None => None
                                  | Some (nodes, header) =>
                                      let has_nonproto := existsb is_nonproto nodes in
                                      match (if has_nonproto then match length buffers with O => None | S n => Some (Some n) end else Some None) with
                                      | None => None
                                      | Some lengths =>
                                          match ReadVarint V32 header with
                                          | None => None
                                          | Some (first, header) =>
                                              if size <=? first then None
                                              else
                                                let nodes := nodes ++ repeat failure_node 255 in
                                                match ContainsImplicitLoop out nodes with
                                                | Some false =>
                                                    match header with
                                                    | _ :: _ => None
                                                    | [] =>
                                                        match Decompressor decompress ct src with
                                                        | None => None
                                                        | Some transitions =>
                                                            Some {| x_buffers := buffers; x_lengths := lengths; x_nodes := nodes;
                                                                    x_first := Z.to_nat first; x_transitions := transitions |}
                                                        end
                                                    end
                                                | _ => None
                                                end
                                          end
                                      end
                                  end
                            end
                        end
                    end
                end
            end
      end
  end.

(** What changes in decoding: the rest of each buffer, [dest] (written backwards), submessage_stack (the position at the end of the
    submessage, and the tag of its node), limits (the last one first) *)
Record decoding := { g_buffers : list (list Z); g_dest : list Z; g_stack : list (Z * list Z); g_limits : list Z }.
Definition set_buffers (b : list (list Z)) (g : decoding) := {| g_buffers := b; g_dest := g_dest g; g_stack := g_stack g; g_limits := g_limits g |}.
Definition set_stack (s : list (Z * list Z)) (g : decoding) := {| g_buffers := g_buffers g; g_dest := g_dest g; g_stack := s; g_limits := g_limits g |}.
(** LimitingBackwardWriter: nothing is written beyond [max_size] *)
Definition write_dest (max_size : Z) (data : list Z) (g : decoding) : option decoding :=
  if max_size <? zlen (g_dest g) + zlen data then None
  else Some {| g_buffers := g_buffers g; g_dest := data ++ g_dest g; g_stack := g_stack g; g_limits := g_limits g |}.
(** Reading [n] bytes of a buffer *)
Definition read_data (buffer : nat) (n : Z) (g : decoding) : option (list Z * decoding) :=
  match nth_error (g_buffers g) buffer with
  | None => None
  | Some data =>
      if zlen data <? n then None
      else
        match update buffer (zdrop n) (g_buffers g) with
        | None => None
        | Some buffers => Some (ztake n data, set_buffers buffers g)
        end
  end.
(** transpose_decoder.cc:1155-1203 MaskBuffer: the highest bit of all bytes but the last one is set *)
Fixpoint MaskBuffer (data : list Z) : list Z :=
  match data with
  | [] => []
  | [b] => [b]
  | b :: data => Z.lor b 128 :: MaskBuffer data
  end.
(** transpose_decoder.cc:1318-1328 MessageStartCallback *)
Definition MessageStartCallback (num_records : Z) (g : decoding) : option decoding :=
  match g_stack g with
  | _ :: _ => None
  | [] =>
      if zlen (g_limits g) =? num_records then None
      else Some {| g_buffers := g_buffers g; g_dest := g_dest g; g_stack := g_stack g; g_limits := zlen (g_dest g) :: g_limits g |}
  end.
(** transpose_decoder.cc:1347-1440 HandleNode, 1136-1345 callbacks *)
Definition HandleNode (num_records max_size : Z) (lengths : option nat) (c : callback) (g : decoding) : option decoding :=
  match c with
  | CNoOp => Some g
  | CFailure => None
  | CMessageStart => MessageStartCallback num_records g
  | CSubmessageEnd tag => Some (set_stack ((zlen (g_dest g), tag) :: g_stack g) g)
  | CSubmessageStart =>
      match g_stack g with
      | [] => None
      | (end_of_submessage, tag) :: stack =>
          let length := zlen (g_dest g) - end_of_submessage in
          if 2 ^ 32 - 1 <? length then None else write_dest max_size (tag ++ WriteVarint V32 length) (set_stack stack g)
      end
  | CCopyTag data => write_dest max_size data g
  | CVarint tag length buffer =>
      match read_data buffer length g with
      | None => None
      | Some (data, g) => write_dest max_size (tag ++ MaskBuffer data) g
      end
  | CFixed tag length buffer =>
      match read_data buffer length g with
      | None => None
      | Some (data, g) => write_dest max_size (tag ++ data) g
      end
  | CString tag buffer =>
      match nth_error (g_buffers g) buffer with
      | None => None
      | Some data =>
          match ReadVarintArray V32 false data with
          | VOk length length_length =>
              if (2 ^ 32 - 1) - Z.of_nat length_length <? length then None
              else
                match read_data buffer (Z.of_nat length_length + length) g with
                | None => None
                | Some (data, g) =>
                    match write_dest max_size data g with
                    | None => None
                    | Some g => write_dest max_size tag g
                    end
                end
          | _ => None
          end
      end
  | CNonProto buffer =>
      match lengths with
      | None => None
      | Some i =>
          match nth_error (g_buffers g) i with
          | None => None
          | Some data =>
              match ReadVarint V32 data with
              | None => None
              | Some (length, rest) =>
                  match update i (fun _ => rest) (g_buffers g) with
                  | None => None
                  | Some buffers =>
                      match read_data buffer length (set_buffers buffers g) with
                      | None => None
                      | Some (data, g) =>
                          match write_dest max_size data g with
                          | None => None
                          | Some g => MessageStartCallback num_records g
                          end
                      end
                  end
              end
          end
      end
  end.
(** transpose_decoder.cc:1522-1530 the loop of Decode, with 1442-1456 TransitionNode.  The result is the state when the transitions end. *)
Fixpoint decode_loop (out : option decoding) (fuel : nat) (num_records max_size : Z) (lengths : option nat) (nodes : list node)
    (i : nat) (num_iters : Z) (transitions : list Z) (g : decoding) : option decoding :=
  match fuel with
  | O => out
  | S fuel =>
      match nth_error nodes i with
      | None => None
      | Some n =>
          match HandleNode num_records max_size lengths (n_callback n) g with
          | None => None
          | Some g =>
              let implicit (i : nat) : bool := match nth_error nodes i with Some n => n_implicit n | None => false end in
              if num_iters =? 0 then
                match transitions with
                | [] => Some g
                | byte :: transitions =>
                    let i := (n_next n + Z.to_nat (Z.shiftr byte 2))%nat in
                    decode_loop out fuel num_records max_size lengths nodes i (Z.land byte 3 + (if implicit i then 1 else 0)) transitions g
                end
              else
                let i := n_next n in
                decode_loop out fuel num_records max_size lengths nodes i (num_iters - (if implicit i then 0 else 1)) transitions g
          end
      end
  end.
(** Each byte makes at most 4 transitions, between them there are at most as many implicit transitions as there are nodes. *)
Definition decode_fuel (nodes transitions : nat) : nat := ((4 * transitions + 1) * (nodes + 1) + 1)%nat.
(** transpose_decoder.cc:1458-1500 Finish: limits are reversed and complemented (in place in the code) *)
Definition Finish (num_records : Z) (g : decoding) : option (list Z * list Z) :=
  match g_stack g with
  | _ :: _ => None
  | [] =>
      if negb (zlen (g_limits g) =? num_records) then None
      else
        let size := match g_limits g with [] => 0 | l :: _ => l end in
        if negb (size =? zlen (g_dest g)) then None
        else
          Some (match g_limits g with [] => [] | l :: rest => map (fun limit => size - limit) rest ++ [l] end, g_dest g)
  end.
(** transpose_decoder.cc:437-462 Decode *)
Definition TransposeDecodeOut (out1 : option (bool * list nat)) (out2 : option decoding) (src : list Z) (num_records decoded_data_size : Z) : option (list Z * list Z) :=
  match Parse out1 src with
  | None => None
  | Some x =>
      let implicit := match nth_error (x_nodes x) (x_first x) with Some n => n_implicit n | None => false end in
      match decode_loop out2 (decode_fuel (length (x_nodes x)) (length (x_transitions x))) num_records decoded_data_size (x_lengths x) (x_nodes x)
              (x_first x) (if implicit then 1 else 0) (x_transitions x)
              {| g_buffers := x_buffers x; g_dest := []; g_stack := []; g_limits := [] |} with
      | None => None
      | Some g =>
          match Finish num_records g with
          | None => None
          | Some (limits, dest) => if zlen dest =? decoded_data_size then Some (limits, dest) else None
          end
      end
  end.
Definition TransposeDecode : list Z -> Z -> Z -> option (list Z * list Z) := TransposeDecodeOut None None.
End Decoding.
