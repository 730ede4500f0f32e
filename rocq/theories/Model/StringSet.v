(** Model of riegeli/containers/linear_sorted_string_set.{h,cc}.

    The contents of [encoded_] (a CompactString) are a list of bytes.  Pointers into it are offsets.  Everywhere in this file
    [None] as a result means undefined behaviour or a crash: an out-of-bounds read, a violated RIEGELI_ASSERT / RIEGELI_ASSUME /
    RIEGELI_CHECK, or a loop of the model out of fuel.  Failures reported to the caller have their own constructors.
    Simplifications: status messages are dropped; [Output()], hashing into an absl hash state (modelled as the list of values
    combined), memory estimation, and the lifetimes of string views are not modelled. *)
From Verif Require Import Base.Bytes Model.Varint.

(** A condition which is asserted, or which must hold for the next operation to be defined. *)
Definition guard {A} (b : bool) (k : option A) : option A := if b then k else None.

(** [absl::string_view(data + p, n)] / memcpy from [data + p] where [mem] is the memory block from [data]. *)
Definition view (mem : list Z) (p n : Z) : option (list Z) :=
  guard ((0 <=? p) && (0 <=? n) && (p + n <=? zlen mem)) (Some (zslice p n mem)).

(** string_view comparison operators: the order of unsigned bytes. *)
Definition str_leb (a b : list Z) : bool := match lex_cmp a b with Gt => false | _ => true end.
Definition str_ltb (a b : list Z) : bool := match lex_cmp a b with Lt => true | _ => false end.

(** [absl::countr_zero] of a 64-bit integer *)
Fixpoint countr_zero_loop (fuel : nat) (x : Z) : Z :=
  match fuel with
  | O => 0
  | S fuel' => if Z.odd x then 0 else 1 + countr_zero_loop fuel' (x / 2)
  end.
Definition countr_zero (x : Z) : Z := countr_zero_loop 64 x.

(** linear_sorted_string_set.cc:57-64: the byte by byte loop. *)
Fixpoint common_prefix_bytes (fuel : nat) (a b : list Z) (length min_length : Z) : option Z :=
  match fuel with
  | O => None
  | S fuel' =>
      if length <? min_length then
        match view a length 1, view b length 1 with
        | Some x, Some y => if negb (list_eqb x y) then Some length else common_prefix_bytes fuel' a b (length + 1) min_length
        | _, _ => None
        end
      else Some length
  end.
(** linear_sorted_string_set.cc:69-70, 78-79: [ReadLittleEndian(a + p) ^ ReadLittleEndian(b + p)] *)
Definition xor_blocks (a b : list Z) (p : Z) : option Z :=
  match view a p 8, view b p 8 with
  | Some x, Some y => Some (Z.lxor (le_val x) (le_val y))
  | _, _ => None
  end.
(** linear_sorted_string_set.cc:67-83: the loop over blocks and the last block. *)
Fixpoint common_prefix_blocks (fuel : nat) (a b : list Z) (length limit : Z) : option Z :=
  match fuel with
  | O => None
  | S fuel' =>
      if length <? limit then
        match xor_blocks a b length with
        | None => None
        | Some x => if negb (x =? 0) then Some (length + countr_zero x / 8)
                    else common_prefix_blocks fuel' a b (length + 8) limit
        end
      else
        match xor_blocks a b limit with
        | None => None
        | Some x => if negb (x =? 0) then Some (limit + countr_zero x / 8) else Some (limit + 8)
        end
  end.
(** linear_sorted_string_set.cc:54-84 *)
Definition CommonPrefix (a b : list Z) : option Z :=
  let min_length := Z.min (zlen a) (zlen b) in
  if min_length <? 8 then common_prefix_bytes (S (length a)) a b 0 min_length
  else common_prefix_blocks (S (length a)) a b 0 (min_length - 8).

(** [ReadVarint64(ptr, limit - ptr, dest)]: the value and the advanced [ptr], or [None] if 0 was returned. *)
Definition read_varint_at (enc : list Z) (ptr : Z) : option (Z * Z) :=
  match ReadVarintArray V64 false (zdrop ptr enc) with
  | VOk v n => Some (v, ptr + Z.of_nat n)
  | _ => None
  end.

(** linear_sorted_string_set.h:200 *)
Definition Set_empty (enc : list Z) : bool := zlen enc =? 0.

(** linear_sorted_string_set.cc:101-139 *)
Fixpoint size_loop (fuel : nat) (enc : list Z) (ptr size current_length : Z) : option Z :=
  match fuel with
  | O => None
  | S fuel' =>
      if ptr =? zlen enc then Some size
      else
        match read_varint_at enc ptr with
        | None => None
        | Some (tagged_length, ptr) =>
            let unshared_length := Z.shiftr tagged_length 1 in
            let next (ptr shared_length : Z) :=
              guard (unshared_length <=? zlen enc - ptr)
                (size_loop fuel' enc (ptr + unshared_length) (size + 1) (u64 (shared_length + unshared_length))) in
            if Z.land tagged_length 1 =? 0 then next ptr 0
            else
              match read_varint_at enc ptr with
              | None => None
              | Some (shared_length, ptr) => guard (shared_length <? current_length) (next ptr (u64 (shared_length + 1)))
              end
        end
  end.
Definition Set_size (enc : list Z) : option Z := size_loop (S (length enc)) enc 0 0 0.

(** linear_sorted_string_set.cc:141-159 *)
Definition Set_first (enc : list Z) : option (list Z) :=
  guard (negb (Set_empty enc))
    match read_varint_at enc 0 with
    | None => None
    | Some (tagged_length, ptr) =>
        guard (Z.land tagged_length 1 =? 0)
          (let length := Z.shiftr tagged_length 1 in
           guard (length <=? zlen enc - ptr) (view enc ptr length))
    end.

(** ** Iterator (linear_sorted_string_set.h:373-388).  [it_cursor = None] is [end()]. *)
Record iter := { it_cursor : option Z; it_length_if_unshared : Z; it_current_if_shared : list Z }.
(** linear_sorted_string_set.h:326-337 operator* *)
Definition Iterator_get (enc : list Z) (it : iter) : option (list Z) :=
  match it_cursor it with
  | None => None
  | Some cursor =>
      if 0 <? it_length_if_unshared it then view enc (cursor - it_length_if_unshared it) (it_length_if_unshared it)
      else Some (it_current_if_shared it)
  end.
(** CompactString::resize(new_size, used_size) followed by a memcpy of [data] to the returned pointer. *)
Definition resize_copy (s : list Z) (new_size used_size : Z) (data : list Z) : option (list Z) :=
  guard ((0 <=? used_size) && (used_size <=? zlen s) && (used_size + zlen data =? new_size)) (Some (ztake used_size s ++ data)).
(** linear_sorted_string_set.cc:417-480 operator++ *)
Definition Iterator_next (enc : list Z) (it : iter) : option iter :=
  match it_cursor it with
  | None => None
  | Some cursor =>
      if cursor =? zlen enc then
        Some {| it_cursor := None; it_length_if_unshared := 0; it_current_if_shared := it_current_if_shared it |}
      else
        match read_varint_at enc cursor with
        | None => None
        | Some (tagged_length, ptr) =>
            let unshared_length := Z.shiftr tagged_length 1 in
            if Z.land tagged_length 1 =? 0 then
              guard (unshared_length <=? zlen enc - ptr)
                (Some {| it_cursor := Some (ptr + unshared_length); it_length_if_unshared := unshared_length;
                         it_current_if_shared := [] |})
            else
              match read_varint_at enc ptr with
              | None => None
              | Some (shared_length, ptr) =>
                  guard (shared_length <? (if 0 <? it_length_if_unshared it then it_length_if_unshared it
                                           else zlen (it_current_if_shared it)))
                    (let shared_length := u64 (shared_length + 1) in
                     guard (unshared_length <=? zlen enc - ptr)
                       (let new_size := u64 (shared_length + unshared_length) in
                        match view enc ptr unshared_length with
                        | None => None
                        | Some unshared =>
                            let current :=
                              if 0 <? it_length_if_unshared it then
                                match view enc (cursor - it_length_if_unshared it) shared_length with
                                | None => None
                                | Some shared => resize_copy (it_current_if_shared it) new_size 0 (shared ++ unshared)
                                end
                              else resize_copy (it_current_if_shared it) new_size shared_length unshared in
                            match current with
                            | None => None
                            | Some current =>
                                Some {| it_cursor := Some (ptr + unshared_length); it_length_if_unshared := 0;
                                        it_current_if_shared := current |}
                            end
                        end))
              end
        end
  end.
(** linear_sorted_string_set.h:364-371, 794-797: begin() *)
Definition Iterator_begin (enc : list Z) : option iter :=
  Iterator_next enc {| it_cursor := Some 0; it_length_if_unshared := 0; it_current_if_shared := [] |}.
(** [for (const absl::string_view element : set)]: the elements visited. *)
Fixpoint iterate (fuel : nat) (enc : list Z) (it : iter) : option (list (list Z)) :=
  match it_cursor it with
  | None => Some []
  | Some _ =>
      match fuel with
      | O => None
      | S fuel' =>
          match Iterator_get enc it, Iterator_next enc it with
          | Some element, Some it => option_map (cons element) (iterate fuel' enc it)
          | _, _ => None
          end
      end
  end.
Definition Set_elements (enc : list Z) : option (list (list Z)) :=
  match Iterator_begin enc with None => None | Some it => iterate (length enc) enc it end.

(** ** SplitElement (linear_sorted_string_set.h:396-469) *)
Record split := { prefix : list Z; suffix : list Z }.
(** linear_sorted_string_set.cc:482-484 *)
Definition Split_string (e : split) : list Z := prefix e ++ suffix e.
(** linear_sorted_string_set.h:413 *)
Definition Split_size (e : split) : Z := zlen (prefix e) + zlen (suffix e).
(** linear_sorted_string_set.h:888-896 operator[] *)
Definition Split_nth (e : split) (index : Z) : option Z :=
  guard ((0 <=? index) && (index <? Split_size e))
    (if index <? zlen (prefix e) then nth_error (prefix e) (Z.to_nat index)
     else nth_error (suffix e) (Z.to_nat (index - zlen (prefix e)))).
(** linear_sorted_string_set.h:906-911 front() *)
Definition Split_front (e : split) : option Z :=
  match prefix e with [] => hd_error (suffix e) | x :: _ => Some x end.
(** linear_sorted_string_set.h:913-918 back() *)
Definition Split_back (e : split) : option Z :=
  match suffix e with [] => hd_error (rev (prefix e)) | _ => hd_error (rev (suffix e)) end.
(** linear_sorted_string_set.h:920-931 *)
Definition Split_remove_prefix (e : split) (length : Z) : option split :=
  guard ((0 <=? length) && (length <=? Split_size e))
    (if length <=? zlen (prefix e) then Some {| prefix := zdrop length (prefix e); suffix := suffix e |}
     else Some {| prefix := []; suffix := zdrop (length - zlen (prefix e)) (suffix e) |}).
(** linear_sorted_string_set.h:933-944 *)
Definition Split_remove_suffix (e : split) (length : Z) : option split :=
  guard ((0 <=? length) && (length <=? Split_size e))
    (if length <=? zlen (suffix e) then Some {| prefix := prefix e; suffix := ztake (zlen (suffix e) - length) (suffix e) |}
     else Some {| prefix := ztake (zlen (prefix e) - (length - zlen (suffix e))) (prefix e); suffix := [] |}).
(** linear_sorted_string_set.cc:579-610.  The two [!=] of the first branch are in the code. *)
Definition Split_Equal (a b : split) : bool :=
  if negb (Split_size a =? Split_size b) then false
  else if zlen (prefix a) <? zlen (prefix b) then
    let split_point_distance := zlen (prefix b) - zlen (prefix a) in
    negb (list_eqb (prefix a) (ztake (zlen (prefix a)) (prefix b))) &&
    negb (list_eqb (ztake split_point_distance (suffix a)) (zdrop (zlen (prefix a)) (prefix b))) &&
    list_eqb (zdrop split_point_distance (suffix a)) (suffix b)
  else if zlen (prefix a) =? zlen (prefix b) then
    list_eqb (prefix a) (prefix b) && list_eqb (suffix a) (suffix b)
  else
    let split_point_distance := zlen (prefix a) - zlen (prefix b) in
    list_eqb (ztake (zlen (prefix b)) (prefix a)) (prefix b) &&
    list_eqb (zdrop (zlen (prefix b)) (prefix a)) (ztake split_point_distance (suffix b)) &&
    list_eqb (suffix a) (zdrop split_point_distance (suffix b)).
(** linear_sorted_string_set.cc:642-651 *)
Definition Split_EqualString (a : split) (b : list Z) : bool :=
  if negb (Split_size a =? zlen b) then false
  else list_eqb (prefix a) (ztake (zlen (prefix a)) b) && list_eqb (suffix a) (zdrop (zlen (prefix a)) b).
(** [if (const StrongOrdering ordering = ...; ordering != 0) return ordering;] *)
Definition or_else (o k : comparison) : comparison := match o with Eq => k | _ => o end.
(** linear_sorted_string_set.cc:653-670 *)
Definition Split_CompareString (a : split) (b : list Z) : comparison :=
  if zlen (prefix a) <=? zlen b then
    or_else (lex_cmp (prefix a) (ztake (zlen (prefix a)) b)) (lex_cmp (suffix a) (zdrop (zlen (prefix a)) b))
  else or_else (lex_cmp (ztake (zlen b) (prefix a)) b) Gt.
(** linear_sorted_string_set.cc:612-640.  Comparing a string with a SplitElement reverses the comparison of the SplitElement
    with the string (riegeli/base/compare.h, WithCompare). *)
Definition Split_Compare (a b : split) : comparison :=
  if zlen (prefix a) <? zlen (prefix b) then
    or_else (lex_cmp (prefix a) (ztake (zlen (prefix a)) (prefix b)))
      (CompOpp (Split_CompareString {| prefix := zdrop (zlen (prefix a)) (prefix b); suffix := suffix b |} (suffix a)))
  else if zlen (prefix a) =? zlen (prefix b) then or_else (lex_cmp (prefix a) (prefix b)) (lex_cmp (suffix a) (suffix b))
  else
    or_else (lex_cmp (ztake (zlen (prefix b)) (prefix a)) (prefix b))
      (Split_CompareString {| prefix := zdrop (zlen (prefix b)) (prefix a); suffix := suffix a |} (suffix b)).

(** ** SplitElementIterator (linear_sorted_string_set.h:547-562).  [prefix_] is a string_view: into encoded data, or into
    [prefix_if_stored_] (always its prefix). *)
Inductive prefix_view := InEncoded (p n : Z) | InStored (n : Z).
Record siter := { si_cursor : option Z; si_stored : list Z; si_prefix : prefix_view; si_suffix_length : Z }.
Definition prefix_length (v : prefix_view) : Z := match v with InEncoded _ n => n | InStored n => n end.
Definition prefix_value (enc : list Z) (it : siter) : option (list Z) :=
  match si_prefix it with
  | InEncoded p n => view enc p n
  | InStored n => view (si_stored it) 0 n
  end.
(** [prefix_ = absl::string_view()] *)
Definition no_prefix : prefix_view := InEncoded 0 0.
(** linear_sorted_string_set.h:507-514 operator* *)
Definition SplitIterator_get (enc : list Z) (it : siter) : option split :=
  match si_cursor it with
  | None => None
  | Some cursor =>
      match prefix_value enc it, view enc (cursor - si_suffix_length it) (si_suffix_length it) with
      | Some p, Some s => Some {| prefix := p; suffix := s |}
      | _, _ => None
      end
  end.
(** linear_sorted_string_set.cc:493-577 operator++ *)
Definition SplitIterator_next (enc : list Z) (it : siter) : option siter :=
  match si_cursor it with
  | None => None
  | Some cursor =>
      if cursor =? zlen enc then
        Some {| si_cursor := None; si_stored := si_stored it; si_prefix := no_prefix; si_suffix_length := 0 |}
      else
        match read_varint_at enc cursor with
        | None => None
        | Some (tagged_length, ptr) =>
            let unshared_length := Z.shiftr tagged_length 1 in
            if Z.land tagged_length 1 =? 0 then
              guard (unshared_length <=? zlen enc - ptr)
                (Some {| si_cursor := Some (ptr + unshared_length); si_stored := si_stored it; si_prefix := no_prefix;
                         si_suffix_length := unshared_length |})
            else
              match read_varint_at enc ptr with
              | None => None
              | Some (shared_length, ptr) =>
                  let prefix_size := prefix_length (si_prefix it) in
                  guard (shared_length <? prefix_size + si_suffix_length it)
                    (let shared_length := u64 (shared_length + 1) in
                     guard (unshared_length <=? zlen enc - ptr)
                       (let done (stored : list Z) (p : prefix_view) :=
                          Some {| si_cursor := Some (ptr + unshared_length); si_stored := stored; si_prefix := p;
                                  si_suffix_length := unshared_length |} in
                        if shared_length <=? prefix_size then
                          done (si_stored it) (match si_prefix it with
                                               | InEncoded p _ => InEncoded p shared_length
                                               | InStored _ => InStored shared_length
                                               end)
                        else if prefix_size =? 0 then
                          done (si_stored it) (InEncoded (cursor - si_suffix_length it) shared_length)
                        else
                          match view enc (cursor - si_suffix_length it) (shared_length - prefix_size) with
                          | None => None
                          | Some appended =>
                              let stored :=
                                match si_prefix it with
                                | InStored _ => resize_copy (si_stored it) shared_length prefix_size appended
                                | InEncoded _ _ =>
                                    match prefix_value enc it with
                                    | None => None
                                    | Some p => resize_copy (si_stored it) shared_length 0 (p ++ appended)
                                    end
                                end in
                              match stored with
                              | None => None
                              | Some stored => done stored (InStored shared_length)
                              end
                          end))
              end
        end
  end.
(** linear_sorted_string_set.h:542-545, 584 *)
Definition SplitIterator_begin (enc : list Z) : option siter :=
  SplitIterator_next enc {| si_cursor := Some 0; si_stored := []; si_prefix := no_prefix; si_suffix_length := 0 |}.
(** Iteration over [split_elements()] *)
Fixpoint split_iterate (fuel : nat) (enc : list Z) (it : siter) : option (list split) :=
  match si_cursor it with
  | None => Some []
  | Some _ =>
      match fuel with
      | O => None
      | S fuel' =>
          match SplitIterator_get enc it, SplitIterator_next enc it with
          | Some element, Some it => option_map (cons element) (split_iterate fuel' enc it)
          | _, _ => None
          end
      end
  end.
Definition Set_split_elements (enc : list Z) : option (list split) :=
  match SplitIterator_begin enc with None => None | Some it => split_iterate (length enc) enc it end.

(** linear_sorted_string_set.cc:161-171 last() *)
Fixpoint last_loop (fuel : nat) (enc : list Z) (it : siter) : option (list Z) :=
  match fuel with
  | O => None
  | S fuel' =>
      match SplitIterator_get enc it, SplitIterator_next enc it with
      | Some last, Some it => match si_cursor it with None => Some (Split_string last) | Some _ => last_loop fuel' enc it end
      | _, _ => None
      end
  end.
Definition Set_last (enc : list Z) : option (list Z) :=
  guard (negb (Set_empty enc)) match SplitIterator_begin enc with None => None | Some it => last_loop (length enc) enc it end.

(** [string_view::substr(pos)] *)
Definition substr (s : list Z) (pos : Z) : option (list Z) := guard ((0 <=? pos) && (pos <=? zlen s)) (Some (zdrop pos s)).

(** linear_sorted_string_set.cc:182-250: the body of the loop.  [CReturn] is [return], [CContinue common_length] goes to the
    next iteration. *)
Inductive contains_step := CReturn (result : bool) | CContinue (common_length : Z).
Definition contains_suffix (found : split) (element : list Z) (common_length : Z) : option contains_step :=
  guard (zlen (prefix found) <=? common_length)
    (let in_suffix := common_length - zlen (prefix found) in
     guard ((in_suffix <=? zlen (suffix found)) && (common_length <=? zlen element))
       match substr (suffix found) in_suffix, substr element common_length with
       | Some f, Some e =>
           match CommonPrefix f e with
           | None => None
           | Some c =>
               let common_length := common_length + c in
               let in_suffix := common_length - zlen (prefix found) in
               guard ((in_suffix <=? zlen (suffix found)) && (common_length <=? zlen element))
                 match substr (suffix found) in_suffix, substr element common_length with
                 | Some found_suffix, Some element_suffix =>
                     match found_suffix, element_suffix with
                     | [], [] => Some (CReturn true)
                     | [], _ :: _ => Some (CContinue common_length)
                     | _ :: _, [] => Some (CReturn false)
                     | f0 :: _, e0 :: _ =>
                         guard (negb (f0 =? e0)) (Some (if e0 <? f0 then CReturn false else CContinue common_length))
                     end
                 | _, _ => None
                 end
           end
       | _, _ => None
       end).
Definition contains_body (found : split) (element : list Z) (common_length : Z) : option contains_step :=
  let common_length := Z.min common_length (zlen (prefix found)) in
  guard (common_length <=? zlen element)
    (if common_length <? zlen (prefix found) then
       match substr (prefix found) common_length, substr element common_length with
       | Some f, Some e =>
           match CommonPrefix f e with
           | None => None
           | Some c =>
               let common_length := common_length + c in
               if common_length <? zlen (prefix found) then
                 guard (common_length <=? zlen element)
                   match substr (prefix found) common_length, substr element common_length with
                   | Some found_middle, Some element_suffix =>
                       match found_middle, element_suffix with
                       | [], _ => None
                       | _ :: _, [] => Some (CReturn false)
                       | f0 :: _, e0 :: _ =>
                           guard (negb (f0 =? e0)) (Some (if e0 <? f0 then CReturn false else CContinue common_length))
                       end
                   | _, _ => None
                   end
               else contains_suffix found element common_length
           end
       | _, _ => None
       end
     else contains_suffix found element common_length).
(** linear_sorted_string_set.cc:173-253: the result and the updated [cumulative_index] *)
Fixpoint ContainsImpl_loop (fuel : nat) (enc element : list Z) (it : siter) (common_length cumulative_index : Z)
    : option (bool * Z) :=
  match si_cursor it with
  | None => Some (false, cumulative_index)
  | Some _ =>
      match fuel with
      | O => None
      | S fuel' =>
          match SplitIterator_get enc it with
          | None => None
          | Some found =>
              match contains_body found element common_length with
              | None => None
              | Some (CReturn result) => Some (result, cumulative_index)
              | Some (CContinue common_length) =>
                  match SplitIterator_next enc it with
                  | None => None
                  | Some it => ContainsImpl_loop fuel' enc element it common_length (cumulative_index + 1)
                  end
              end
          end
      end
  end.
Definition ContainsImpl (enc element : list Z) (it : siter) (cumulative_index : Z) : option (bool * Z) :=
  ContainsImpl_loop (length enc) enc element it 0 cumulative_index.
(** linear_sorted_string_set.h:814-823: the result and the index (stored if [index != nullptr]) *)
Definition Set_contains (enc element : list Z) : option (bool * Z) :=
  match SplitIterator_begin enc with None => None | Some it => ContainsImpl enc element it 0 end.
(** linear_sorted_string_set.h:825-837: for the empty set the index is not stored *)
Definition Set_contains_skip_first (enc element : list Z) : option (bool * option Z) :=
  match SplitIterator_begin enc with
  | None => None
  | Some it =>
      match si_cursor it with
      | None => Some (false, None)
      | Some _ =>
          match SplitIterator_next enc it with
          | None => None
          | Some it => match ContainsImpl enc element it 1 with None => None | Some (r, i) => Some (r, Some i) end
          end
      end
  end.

(** linear_sorted_string_set.cc:255-259: std::equal over the split elements *)
Fixpoint equal_loop (fuel : nat) (enc_a enc_b : list Z) (a b : siter) : option bool :=
  match fuel with
  | O => None
  | S fuel' =>
      match si_cursor a, si_cursor b with
      | None, None => Some true
      | None, Some _ | Some _, None => Some false
      | Some _, Some _ =>
          match SplitIterator_get enc_a a, SplitIterator_get enc_b b with
          | Some x, Some y =>
              if negb (Split_Equal x y) then Some false
              else
                match SplitIterator_next enc_a a, SplitIterator_next enc_b b with
                | Some a, Some b => equal_loop fuel' enc_a enc_b a b
                | _, _ => None
                end
          | _, _ => None
          end
      end
  end.
Definition Set_Equal (enc_a enc_b : list Z) : option bool :=
  match SplitIterator_begin enc_a, SplitIterator_begin enc_b with
  | Some a, Some b => equal_loop (S (length enc_a)) enc_a enc_b a b
  | _, _ => None
  end.
(** linear_sorted_string_set.cc:261-276 *)
Fixpoint compare_loop (fuel : nat) (enc_a enc_b : list Z) (a b : siter) : option comparison :=
  match fuel with
  | O => None
  | S fuel' =>
      match si_cursor a with
      | None => Some (match si_cursor b with None => Eq | Some _ => Lt end)
      | Some _ =>
          match si_cursor b with
          | None => Some Gt
          | Some _ =>
              match SplitIterator_get enc_a a, SplitIterator_get enc_b b with
              | Some x, Some y =>
                  match Split_Compare x y with
                  | Eq =>
                      match SplitIterator_next enc_a a, SplitIterator_next enc_b b with
                      | Some a, Some b => compare_loop fuel' enc_a enc_b a b
                      | _, _ => None
                      end
                  | o => Some o
                  end
              | _, _ => None
              end
          end
      end
  end.
Definition Set_Compare (enc_a enc_b : list Z) : option comparison :=
  match SplitIterator_begin enc_a, SplitIterator_begin enc_b with
  | Some a, Some b => compare_loop (S (length enc_a)) enc_a enc_b a b
  | _, _ => None
  end.

(** linear_sorted_string_set.h:844-852: the values combined into the hash state *)
Inductive hashed := HString (s : list Z) | HSize (n : Z).
Definition Set_HashValue (enc : list Z) : option (list hashed) :=
  option_map (fun es => map HString es ++ [HSize (zlen es)]) (Set_elements enc).

(** ** Builder (linear_sorted_string_set.h:600-685) *)
Record builder := { b_writer : list Z; b_size : Z; b_last : list Z }.
Definition Builder_new : builder := {| b_writer := []; b_size := 0; b_last := [] |}.
(** absl::StatusOr<bool>; [Failed] is FailedPreconditionError *)
Inductive status_or_bool := Inserted (b : bool) | Failed.
(** linear_sorted_string_set.cc:719-726 and 736-739: [update_last] of the two variants of TryInsertNext() *)
Definition update_last_view (last element : list Z) (shared_length : Z) : list Z * list Z :=
  let unshared := zdrop shared_length element in (ztake shared_length last ++ unshared, unshared).
Definition update_last_string (last element : list Z) (shared_length : Z) : list Z * list Z :=
  (element, zdrop shared_length element).
(** linear_sorted_string_set.cc:745-781 *)
Definition InsertNextImpl (update_last : list Z -> list Z -> Z -> list Z * list Z) (b : builder) (element : list Z)
    : option (builder * status_or_bool) :=
  match CommonPrefix (b_last b) element with
  | None => None
  | Some shared_length =>
      match substr element shared_length, substr (b_last b) shared_length with
      | Some unshared_element, Some unshared_last =>
          if str_leb unshared_element unshared_last && negb (b_size b =? 0) then
            if list_eqb unshared_element unshared_last then Some (b, Inserted false) else Some (b, Failed)
          else
            let shared_length := if shared_length =? 1 then 0 else shared_length in
            let (last, unshared) := update_last (b_last b) element shared_length in
            let unshared_length := zlen unshared in
            let tagged_length := Z.lor (u64 (Z.shiftl unshared_length 1)) (if 0 <? shared_length then 1 else 0) in
            Some ({| b_writer := b_writer b ++ WriteVarint V64 tagged_length ++
                                 (if 0 <? shared_length then WriteVarint V64 (shared_length - 1) else []) ++ unshared;
                     b_size := b_size b + 1; b_last := last |}, Inserted true)
      | _, _ => None
      end
  end.
(** linear_sorted_string_set.cc:716-727, 729-740: [moved] tells which overload is called *)
Definition TryInsertNext (moved : bool) (b : builder) (element : list Z) : option (builder * status_or_bool) :=
  InsertNextImpl (if moved then update_last_string else update_last_view) b element.
(** linear_sorted_string_set.cc:696-712: RIEGELI_CHECK_OK *)
Definition InsertNext (moved : bool) (b : builder) (element : list Z) : option (builder * bool) :=
  match TryInsertNext moved b element with
  | Some (b, Inserted r) => Some (b, r)
  | _ => None
  end.
(** linear_sorted_string_set.cc:783-798: the set and the builder afterwards *)
Definition Build (b : builder) : list Z * builder := (b_writer b, {| b_writer := []; b_size := 0; b_last := [] |}).

(** linear_sorted_string_set.h:757-767 *)
Fixpoint insert_all (moved : bool) (b : builder) (src : list (list Z)) : option builder :=
  match src with
  | [] => Some b
  | e :: src' => match InsertNext moved b e with Some (b, _) => insert_all moved b src' | None => None end
  end.
Definition FromSorted (moved : bool) (src : list (list Z)) : option (list Z) :=
  option_map (fun b => fst (Build b)) (insert_all moved Builder_new src).
(** std::sort by [<] on strings.  The result is unique because elements which compare equal are equal strings, hence the
    algorithm does not matter. *)
Fixpoint sorted_insert (e : list Z) (l : list (list Z)) : list (list Z) :=
  match l with
  | [] => [e]
  | x :: l' => if str_ltb x e then x :: sorted_insert e l' else e :: l
  end.
Definition std_sort (l : list (list Z)) : list (list Z) := fold_right sorted_insert [] l.
(** linear_sorted_string_set.h:769-792 *)
Definition FromUnsorted (moved : bool) (src : list (list Z)) : option (list Z) :=
  option_map (fun b => fst (Build b)) (insert_all moved Builder_new (std_sort src)).

(** ** Serialization *)
(** linear_sorted_string_set.h:854-856 *)
Definition EncodedSize (enc : list Z) : Z := LengthVarint (zlen enc) + zlen enc.
(** linear_sorted_string_set.cc:278-284.  Simplification: [dest] does not fail. *)
Definition EncodeImpl (enc : list Z) : list Z := WriteVarint V64 (zlen enc) ++ enc.

(** linear_sorted_string_set.h:65-72 *)
Record decode_state := { ds_cumulative_size : Z; ds_last : option (list Z) }.
Definition decode_state_new : decode_state := {| ds_cumulative_size := 0; ds_last := None |}.
(** The state of the loop of DecodeImpl *)
Record decode_loop_state := { dl_size : Z; dl_current_length : Z; dl_shared : list Z; dl_current : option (list Z) }.
(** [Reject] is a returned failure. *)
Inductive decoded A := Accept (x : A) | Reject.
Arguments Accept {A} x. Arguments Reject {A}.
(** linear_sorted_string_set.cc:319-401 *)
Fixpoint decode_loop (fuel : nat) (validate : bool) (enc : list Z) (ptr : Z) (s : decode_loop_state)
    : option (decoded decode_loop_state) :=
  match fuel with
  | O => None
  | S fuel' =>
      if ptr =? zlen enc then Some (Accept s)
      else
        match read_varint_at enc ptr with
        | None => Some Reject
        | Some (tagged_length, ptr) =>
            let unshared_length := Z.shiftr tagged_length 1 in
            if Z.land tagged_length 1 =? 0 then
              if zlen enc - ptr <? unshared_length then Some Reject
              else
                let current_length := unshared_length in
                if validate then
                  match view enc ptr current_length with
                  | None => None
                  | Some element =>
                      if match dl_current s with Some current => str_leb element current | None => false end then Some Reject
                      else decode_loop fuel' validate enc (ptr + unshared_length)
                             {| dl_size := dl_size s + 1; dl_current_length := current_length; dl_shared := [];
                                dl_current := Some element |}
                  end
                else decode_loop fuel' validate enc (ptr + unshared_length)
                       {| dl_size := dl_size s + 1; dl_current_length := current_length; dl_shared := dl_shared s;
                          dl_current := dl_current s |}
            else
              match read_varint_at enc ptr with
              | None => Some Reject
              | Some (shared_length, ptr) =>
                  if dl_current_length s <=? shared_length then Some Reject
                  else
                    let shared_length := u64 (shared_length + 1) in
                    if zlen enc - ptr <? unshared_length then Some Reject
                    else
                      let current_length := u64 (shared_length + unshared_length) in
                      if validate then
                        match view enc ptr unshared_length with
                        | None => None
                        | Some unshared =>
                            match match dl_current s with
                                  | Some current => match substr current shared_length with
                                                    | Some rest => Some (str_leb unshared rest)
                                                    | None => None
                                                    end
                                  | None => Some false
                                  end with
                            | None => None
                            | Some true => Some Reject
                            | Some false =>
                                let shared :=
                                  if zlen (dl_shared s) =? 0 then
                                    match dl_current s with
                                    | None => None
                                    | Some current =>
                                        match view current 0 shared_length with
                                        | None => None
                                        | Some p => resize_copy (dl_shared s) current_length 0 (p ++ unshared)
                                        end
                                    end
                                  else resize_copy (dl_shared s) current_length shared_length unshared in
                                match shared with
                                | None => None
                                | Some shared =>
                                    decode_loop fuel' validate enc (ptr + unshared_length)
                                      {| dl_size := dl_size s + 1; dl_current_length := current_length; dl_shared := shared;
                                         dl_current := Some shared |}
                                end
                            end
                        end
                      else decode_loop fuel' validate enc (ptr + unshared_length)
                             {| dl_size := dl_size s + 1; dl_current_length := current_length; dl_shared := dl_shared s;
                                dl_current := dl_current s |}
              end
        end
  end.
(** linear_sorted_string_set.cc:286-415.  [src]: the bytes remaining in the Reader; simplification: the Reader does not fail
    except at the end of the source.  [state = None]: [options.decode_state() == nullptr].  On success: the set, the bytes
    remaining, and the decode state afterwards. *)
Definition DecodeImpl (validate : bool) (max_encoded_size : Z) (state : option decode_state) (src : list Z)
    : option (decoded (list Z * list Z * option decode_state)) :=
  match ReadVarint V64 src with
  | None => Some Reject
  | Some (encoded_size, src) =>
      if max_encoded_size <? encoded_size then Some Reject
      else if zlen src <? encoded_size then Some Reject
      else
        let encoded := ztake encoded_size src in
        let src := zdrop encoded_size src in
        let current := match state with Some d => ds_last d | None => None end in
        match decode_loop (S (length encoded)) validate encoded 0
                {| dl_size := 0; dl_current_length := 0; dl_shared := []; dl_current := current |} with
        | None => None
        | Some Reject => Some Reject
        | Some (Accept s) =>
            match state with
            | None => Some (Accept (encoded, src, None))
            | Some d =>
                if 0 <? dl_size s then
                  let cumulative_size := ds_cumulative_size d + dl_size s in
                  if validate then
                    if zlen (dl_shared s) =? 0 then
                      match dl_current s with
                      | None => None
                      | Some current =>
                          Some (Accept (encoded, src, Some {| ds_cumulative_size := cumulative_size; ds_last := Some current |}))
                      end
                    else Some (Accept (encoded, src, Some {| ds_cumulative_size := cumulative_size; ds_last := Some (dl_shared s) |}))
                  else Some (Accept (encoded, src, Some {| ds_cumulative_size := cumulative_size; ds_last := ds_last d |}))
                else Some (Accept (encoded, src, Some d))
            end
        end
  end.
(** linear_sorted_string_set.h:873-886 with an owned source: [VerifyEnd()] *)
Definition Decode (validate : bool) (max_encoded_size : Z) (src : list Z) : option (decoded (list Z)) :=
  match DecodeImpl validate max_encoded_size None src with
  | None => None
  | Some Reject => Some Reject
  | Some (Accept (enc, rest, _)) => Some (if zlen rest =? 0 then Accept enc else Reject)
  end.
