(** What a ChunkedSortedStringSet represents. *)
From Verif Require Import Base.Bytes Spec.StringSetSpec Model.StringSet Model.ChunkedStringSet Spec.StringSetCalls.

(** A chunk is a non-empty linear set. *)
Definition chunk_of (c : chunk) (es : list (list Z)) : Prop :=
  bytes (c_set c) /\ set_encoding (c_set c) es /\ Forall short es /\ es <> [].
(** Chunks hold the elements [ess], the number of elements before them being [start]. *)
Fixpoint chunked (start : Z) (chunks : list chunk) (ess : list (list (list Z))) : Prop :=
  match chunks, ess with
  | [], [] => True
  | c :: chunks', es :: ess' => chunk_of c es /\ c_end c = start + zlen es /\ chunked (start + zlen es) chunks' ess'
  | _, _ => False
  end.
Definition represents (chunks : list chunk) (es : list (list Z)) : Prop := exists ess, chunked 0 chunks ess /\ concat ess = es.

(** A sequence of TryInsertNext() calls; the [bool] tells whether the string is moved into the call. *)
Fixpoint c_try_inserts (b : cbuilder) (calls : list (bool * list Z)) : option (cbuilder * list status_or_bool) :=
  match calls with
  | [] => Some (b, [])
  | (moved, e) :: calls' =>
      match CTryInsertNext moved b e with
      | None => None
      | Some (b, r) => match c_try_inserts b calls' with None => None | Some (b, rs) => Some (b, r :: rs) end
      end
  end.
(** All chunks have [n] elements, except for the last one which has at most [n]. *)
Fixpoint chunk_sizes (n : Z) (ess : list (list (list Z))) : Prop :=
  match ess with
  | [] => True
  | [es] => zlen es <= n
  | es :: ess' => zlen es = n /\ chunk_sizes n ess'
  end.
(** [serialized max src chunks rest]: [src] is the concatenation of serialized chunks, each at most [max] bytes, and [rest]. *)
Inductive serialized (max : Z) : list Z -> list chunk -> list Z -> Prop :=
| serialized_nil rest : serialized max rest [] rest
| serialized_cons t c src chunks rest : varint_of (zlen (c_set c)) t -> zlen (c_set c) <= max -> serialized max src chunks rest ->
    serialized max (t ++ c_set c ++ src) (c :: chunks) rest.
