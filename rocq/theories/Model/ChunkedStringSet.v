(** Model of riegeli/containers/chunked_sorted_string_set.{h,cc}.

    As in Model/StringSet.v, [None] means undefined behaviour, a crash, or a loop of the model out of fuel.
    Simplifications: [cumulative_end_index] (size_t) is a mathematical integer; size hints only reserve memory and are dropped;
    status messages, memory estimation and lifetimes are not modelled. *)
From Verif Require Import Base.Bytes Model.Varint Model.StringSet Model.BinarySearch.

(** chunked_sorted_string_set.h:338-347: Chunk; the set is its [chunks_]. *)
Record chunk := { c_set : list Z; c_end : Z }.

(** chunked_sorted_string_set.h:243-246 empty(), size() *)
Definition CSet_empty (chunks : list chunk) : bool := match chunks with [] => true | _ => false end.
Definition back_end (chunks : list chunk) : Z := match rev chunks with [] => 0 | c :: _ => c_end c end.
Definition CSet_size (chunks : list chunk) : Z := back_end chunks.
(** chunked_sorted_string_set.h:249-263 first(), last() *)
Definition CSet_first (chunks : list chunk) : option (list Z) :=
  match chunks with [] => None | c :: _ => Set_first (c_set c) end.
Definition CSet_last (chunks : list chunk) : option (list Z) :=
  match rev chunks with [] => None | c :: _ => Set_last (c_set c) end.
(** chunked_sorted_string_set.cc:57-75: conversion from LinearSortedStringSet *)
Definition CSet_from_linear (src : list Z) : option (list chunk) :=
  if Set_empty src then Some []
  else match Set_size src with None => None | Some size => Some [{| c_set := src; c_end := size |}] end.
(** chunked_sorted_string_set.h:229 has_single_chunk(), chunked_sorted_string_set.cc:77-93 TheChunk() *)
Definition has_single_chunk (chunks : list chunk) : bool := zlen chunks <=? 1.
Definition TheChunk (chunks : list chunk) : option (list Z) :=
  guard (has_single_chunk chunks) (match chunks with [] => Some [] | c :: _ => Some (c_set c) end).

(** ** Iterators: chunked_sorted_string_set.h:386-470, parametrized by the iterator of LinearSortedStringSet *)
Record linear_iterator (T E : Type) := {
  li_begin : list Z -> option T; li_get : list Z -> T -> option E; li_next : list Z -> T -> option T; li_is_end : T -> bool
}.
Arguments li_begin {T E}. Arguments li_get {T E}. Arguments li_next {T E}. Arguments li_is_end {T E}.
(** chunked_sorted_string_set.h:711-724 GetLinearIterator *)
Definition linear_elements : linear_iterator iter (list Z) :=
  {| li_begin := Iterator_begin; li_get := Iterator_get; li_next := Iterator_next;
     li_is_end := fun it => match it_cursor it with None => true | Some _ => false end |}.
Definition linear_split_elements : linear_iterator siter split :=
  {| li_begin := SplitIterator_begin; li_get := SplitIterator_get; li_next := SplitIterator_next;
     li_is_end := fun it => match si_cursor it with None => true | Some _ => false end |}.
(** [current_iterator_] ([None]: [LinearIterator()]) and [current_chunk_iterator_] *)
Record citer (T : Type) := { ci_current : option T; ci_chunk : nat }.
Arguments ci_current {T}. Arguments ci_chunk {T}.
Definition ci_is_end {T E} (I : linear_iterator T E) (it : citer T) : bool :=
  match ci_current it with None => true | Some current => li_is_end I current end.
(** chunked_sorted_string_set.h:450-456 *)
Definition CIterator_begin {T E} (I : linear_iterator T E) (chunks : list chunk) : option (citer T) :=
  match chunks with
  | [] => Some {| ci_current := None; ci_chunk := 0 |}
  | c :: _ => match li_begin I (c_set c) with
              | None => None
              | Some current => Some {| ci_current := Some current; ci_chunk := 0 |}
              end
  end.
(** chunked_sorted_string_set.h:422-428 *)
Definition CIterator_get {T E} (I : linear_iterator T E) (chunks : list chunk) (it : citer T) : option E :=
  match ci_current it, nth_error chunks (ci_chunk it) with
  | Some current, Some c => if li_is_end I current then None else li_get I (c_set c) current
  | _, _ => None
  end.
(** chunked_sorted_string_set.cc:216-238 *)
Definition CIterator_next {T E} (I : linear_iterator T E) (chunks : list chunk) (it : citer T) : option (citer T) :=
  match ci_current it, nth_error chunks (ci_chunk it) with
  | Some current, Some c =>
      if li_is_end I current then None
      else
        match li_next I (c_set c) current with
        | None => None
        | Some current =>
            if negb (li_is_end I current) then Some {| ci_current := Some current; ci_chunk := ci_chunk it |}
            else
              match nth_error chunks (S (ci_chunk it)) with
              | None => Some {| ci_current := Some current; ci_chunk := S (ci_chunk it) |}
              | Some c =>
                  match li_begin I (c_set c) with
                  | None => None
                  | Some current => Some {| ci_current := Some current; ci_chunk := S (ci_chunk it) |}
                  end
              end
        end
  | _, _ => None
  end.
(** The elements visited by a loop from [it] *)
Fixpoint c_iterate {T E} (I : linear_iterator T E) (fuel : nat) (chunks : list chunk) (it : citer T) : option (list E) :=
  if ci_is_end I it then Some []
  else
    match fuel with
    | O => None
    | S fuel' =>
        match CIterator_get I chunks it, CIterator_next I chunks it with
        | Some element, Some it => option_map (cons element) (c_iterate I fuel' chunks it)
        | _, _ => None
        end
    end.
Definition total_bytes (chunks : list chunk) : nat := list_sum (map (fun c => length (c_set c)) chunks).
Definition c_elements {T E} (I : linear_iterator T E) (chunks : list chunk) : option (list E) :=
  match CIterator_begin I chunks with None => None | Some it => c_iterate I (total_bytes chunks) chunks it end.
Definition CSet_elements : list chunk -> option (list (list Z)) := c_elements linear_elements.
Definition CSet_split_elements : list chunk -> option (list split) := c_elements linear_split_elements.

(** ** contains() *)
(** riegeli::Compare: StrongOrdering as an ordering of BinarySearch() *)
Definition ordering_of (c : comparison) : ordering := match c with Lt => Less | Eq => Equivalent | Gt => Greater end.
(** chunked_sorted_string_set.h:349-354 CompareFirst *)
Definition CompareFirst (chunks : list chunk) (element : list Z) (p : Z) (st : unit) : option (ordering * unit) :=
  match nth_error chunks (Z.to_nat p) with
  | None => None
  | Some c => match Set_first (c_set c) with None => None | Some first => Some (ordering_of (lex_cmp first element), st) end
  end.
Definition find_chunk (chunks : list chunk) (element : list Z) : option ((ordering * Z) * unit) :=
  DefaultBinarySearch (CompareFirst chunks element) (2 * length chunks + 1) 1 (zlen chunks) tt.
(** chunked_sorted_string_set.cc:95-106 *)
Definition CSet_contains (chunks : list chunk) (element : list Z) : option bool :=
  match chunks with
  | [] => Some false
  | _ =>
      match find_chunk chunks element with
      | None => None
      | Some ((o, found), _) =>
          let found := found - 1 in
          match o with
          | Equivalent => Some true
          | _ =>
              match nth_error chunks (Z.to_nat found) with
              | None => None
              | Some c => if found =? 0 then option_map fst (Set_contains (c_set c) element)
                          else option_map fst (Set_contains_skip_first (c_set c) element)
              end
          end
      end
  end.
(** chunked_sorted_string_set.cc:108-128: the result and [index] *)
Definition CSet_contains_index (chunks : list chunk) (element : list Z) : option (bool * Z) :=
  match chunks with
  | [] => Some (false, 0)
  | _ =>
      match find_chunk chunks element with
      | None => None
      | Some ((o, found), _) =>
          let found := found - 1 in
          match nth_error chunks (Z.to_nat found) with
          | None => None
          | Some c =>
              match o with
              | Equivalent => Some (true, c_end c)
              | _ =>
                  if found =? 0 then Set_contains (c_set c) element
                  else
                    match Set_contains_skip_first (c_set c) element, nth_error chunks (Z.to_nat (found - 1)) with
                    | Some (result, Some index), Some before => Some (result, index + c_end before)
                    | _, _ => None
                    end
              end
          end
      end
  end.

(** ** Comparison *)
(** std::equal over the split elements *)
Fixpoint c_equal_loop (fuel : nat) (ca cb : list chunk) (a b : citer siter) : option bool :=
  match fuel with
  | O => None
  | S fuel' =>
      match ci_is_end linear_split_elements a, ci_is_end linear_split_elements b with
      | true, true => Some true
      | true, false | false, true => Some false
      | false, false =>
          match CIterator_get linear_split_elements ca a, CIterator_get linear_split_elements cb b with
          | Some x, Some y =>
              if negb (Split_Equal x y) then Some false
              else
                match CIterator_next linear_split_elements ca a, CIterator_next linear_split_elements cb b with
                | Some a, Some b => c_equal_loop fuel' ca cb a b
                | _, _ => None
                end
          | _, _ => None
          end
      end
  end.
(** chunked_sorted_string_set.cc:130-135 *)
Definition CSet_Equal (ca cb : list chunk) : option bool :=
  if CSet_size ca =? CSet_size cb then
    match CIterator_begin linear_split_elements ca, CIterator_begin linear_split_elements cb with
    | Some a, Some b => c_equal_loop (S (total_bytes ca)) ca cb a b
    | _, _ => None
    end
  else Some false.
(** chunked_sorted_string_set.cc:137-153 *)
Fixpoint c_compare_loop (fuel : nat) (ca cb : list chunk) (a b : citer siter) : option comparison :=
  match fuel with
  | O => None
  | S fuel' =>
      if ci_is_end linear_split_elements a then Some (if ci_is_end linear_split_elements b then Eq else Lt)
      else if ci_is_end linear_split_elements b then Some Gt
      else
        match CIterator_get linear_split_elements ca a, CIterator_get linear_split_elements cb b with
        | Some x, Some y =>
            match Split_Compare x y with
            | Eq =>
                match CIterator_next linear_split_elements ca a, CIterator_next linear_split_elements cb b with
                | Some a, Some b => c_compare_loop fuel' ca cb a b
                | _, _ => None
                end
            | o => Some o
            end
        | _, _ => None
        end
  end.
Definition CSet_Compare (ca cb : list chunk) : option comparison :=
  match CIterator_begin linear_split_elements ca, CIterator_begin linear_split_elements cb with
  | Some a, Some b => c_compare_loop (S (total_bytes ca)) ca cb a b
  | _, _ => None
  end.
(** chunked_sorted_string_set.h:726-732: the values combined into the hash state *)
Definition CSet_HashValue (chunks : list chunk) : option (list hashed) :=
  option_map (fun es => map HString es ++ [HSize (CSet_size chunks)]) (CSet_elements chunks).

(** ** Serialization *)
(** chunked_sorted_string_set.cc:155-159 *)
Definition CSet_EncodedSize (chunks : list chunk) : Z :=
  LengthVarint (zlen chunks) + fold_right Z.add 0 (map (fun c => EncodedSize (c_set c)) chunks).
(** chunked_sorted_string_set.cc:161-172.  Simplification: [dest] does not fail. *)
Definition CSet_EncodeImpl (chunks : list chunk) : list Z :=
  WriteVarint V64 (zlen chunks) ++ concat (map (fun c => EncodeImpl (c_set c)) chunks).
(** chunked_sorted_string_set.cc:196-210: the loop over the [num_chunks] chunks *)
Fixpoint c_decode_loop (num_chunks : nat) (validate : bool) (max_encoded_chunk_size : Z) (state : decode_state) (src : list Z)
    (chunks : list chunk) : option (decoded (list chunk * list Z)) :=
  match num_chunks with
  | O => Some (Accept (chunks, src))
  | S num_chunks' =>
      match DecodeImpl validate max_encoded_chunk_size (Some state) src with
      | None => None
      | Some Reject => Some Reject
      | Some (Accept (_, _, None)) => None
      | Some (Accept (set, src, Some state)) =>
          if Set_empty set then Some Reject
          else c_decode_loop num_chunks' validate max_encoded_chunk_size state src
                 (chunks ++ [{| c_set := set; c_end := ds_cumulative_size state |}])
      end
  end.
(** chunked_sorted_string_set.cc:174-213.  The number of chunks is a count of loop iterations here; the allocation of
    [num_chunks] chunks before they are read is not modelled. *)
Definition CSet_DecodeImpl (validate : bool) (max_num_chunks max_encoded_chunk_size : Z) (src : list Z)
    : option (decoded (list chunk * list Z)) :=
  match ReadVarint V64 src with
  | None => Some Reject
  | Some (num_chunks, src) =>
      if max_num_chunks <? num_chunks then Some Reject
      else c_decode_loop (Z.to_nat num_chunks) validate max_encoded_chunk_size decode_state_new src []
  end.
(** chunked_sorted_string_set.h:750-764 with an owned source *)
Definition CSet_Decode (validate : bool) (max_num_chunks max_encoded_chunk_size : Z) (src : list Z) : option (decoded (list chunk)) :=
  match CSet_DecodeImpl validate max_num_chunks max_encoded_chunk_size src with
  | None => None
  | Some Reject => Some Reject
  | Some (Accept (chunks, rest)) => Some (if zlen rest =? 0 then Accept chunks else Reject)
  end.

(** ** Builder: chunked_sorted_string_set.h:500-585 *)
Record cbuilder := { cb_chunk_size : Z; cb_chunks : list chunk; cb_current : builder }.
Definition CBuilder_new (chunk_size : Z) : cbuilder := {| cb_chunk_size := chunk_size; cb_chunks := []; cb_current := Builder_new |}.
(** chunked_sorted_string_set.h:556-563 size() *)
Definition CBuilder_size (b : cbuilder) : Z := back_end (cb_chunks b) + b_size (cb_current b).
(** chunked_sorted_string_set.cc:341-351 *)
Definition AddChunk (b : cbuilder) : cbuilder :=
  let cumulative_end_index := back_end (cb_chunks b) + b_size (cb_current b) in
  let (set, current) := Build (cb_current b) in
  {| cb_chunk_size := cb_chunk_size b; cb_chunks := cb_chunks b ++ [{| c_set := set; c_end := cumulative_end_index |}];
     cb_current := current |}.
(** chunked_sorted_string_set.cc:294-329.  linear_sorted_string_set.h:666: [last()] of the current builder must not be empty. *)
Definition CTryInsertNext (moved : bool) (b : cbuilder) (element : list Z) : option (cbuilder * status_or_bool) :=
  let insert (b : cbuilder) :=
    match TryInsertNext moved (cb_current b) element with
    | None => None
    | Some (current, r) => Some ({| cb_chunk_size := cb_chunk_size b; cb_chunks := cb_chunks b; cb_current := current |}, r)
    end in
  if b_size (cb_current b) =? cb_chunk_size b then
    guard (negb (b_size (cb_current b) =? 0))
      (if str_leb element (b_last (cb_current b)) then
         Some (b, if list_eqb element (b_last (cb_current b)) then Inserted false else Failed)
       else insert (AddChunk b))
  else insert b.
(** chunked_sorted_string_set.cc:275-292: RIEGELI_CHECK_OK *)
Definition CInsertNext (moved : bool) (b : cbuilder) (element : list Z) : option (cbuilder * bool) :=
  match CTryInsertNext moved b element with
  | Some (b, Inserted r) => Some (b, r)
  | _ => None
  end.
(** chunked_sorted_string_set.cc:332-339 *)
Definition CBuild (b : cbuilder) : list chunk * cbuilder :=
  let b := if negb (b_size (cb_current b) =? 0) then AddChunk b else b in
  (cb_chunks b, {| cb_chunk_size := cb_chunk_size b; cb_chunks := []; cb_current := cb_current b |}).
(** chunked_sorted_string_set.h:646-663 *)
Fixpoint c_insert_all (moved : bool) (b : cbuilder) (src : list (list Z)) : option cbuilder :=
  match src with
  | [] => Some b
  | e :: src' => match CInsertNext moved b e with Some (b, _) => c_insert_all moved b src' | None => None end
  end.
Definition CFromSorted (moved : bool) (chunk_size : Z) (src : list (list Z)) : option (list chunk) :=
  option_map (fun b => fst (CBuild b)) (c_insert_all moved (CBuilder_new chunk_size) src).
(** chunked_sorted_string_set.h:665-693 *)
Definition CFromUnsorted (moved : bool) (chunk_size : Z) (src : list (list Z)) : option (list chunk) :=
  option_map (fun b => fst (CBuild b)) (c_insert_all moved (CBuilder_new chunk_size) (std_sort src)).
