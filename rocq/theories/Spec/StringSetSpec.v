(** What a sorted set of strings is, and the format documented in linear_sorted_string_set.h:284-291, independently of the
    implementation. *)
From Verif Require Import Base.Bytes Spec.VarintSpec.
From Coq Require Export Sorting.Sorted Sorting.Permutation.

(** Strictly increasing in the order of byte strings: sorted and unique. *)
Definition increasing (es : list (list Z)) : Prop := StronglySorted lex_lt es.
Definition lessb (a b : list Z) : bool := match lex_cmp a b with Lt => true | _ => false end.
(** The index of [q] in the set, or the index where it would be inserted: the number of smaller elements. *)
Definition index_of (q : list Z) (es : list (list Z)) : Z := zlen (filter (fun e => lessb e q) es).
(** Strings which fit in the address space. *)
Definition short (e : list Z) : Prop := zlen e < 2 ^ 62.

(** What the sequence of TryInsertNext() calls with [src] inserts, when [last] is the last element inserted before: elements
    not greater than the last inserted one are skipped. *)
Definition fresh (last : option (list Z)) (e : list Z) : bool :=
  match last with None => true | Some l => lessb l e end.
Fixpoint kept (last : option (list Z)) (src : list (list Z)) : list (list Z) :=
  match src with
  | [] => []
  | e :: src' => if fresh last e then e :: kept (Some e) src' else kept last src'
  end.
(** The last element, if any *)
Definition last_of (es : list (list Z)) : option (list Z) := hd_error (rev es).

(** Sorted, with duplicates allowed *)
Definition sorted (es : list (list Z)) : Prop := StronglySorted (fun a b => lex_cmp a b <> Gt) es.

(** [varint_of v l]: [l] is a varint64 (not necessarily the shortest one) with the value [v]. *)
Definition varint_of (v : Z) (l : list Z) : Prop := is_varint l /\ (length l <= 10)%nat /\ base128 l = v /\ v < 2 ^ 64.
(** [encodes prev enc es]: [enc] is the concatenation of representations of [es], the element before them being [prev]. *)
Inductive encodes : list Z -> list Z -> list (list Z) -> Prop :=
| encodes_nil prev : encodes prev [] []
| encodes_unshared prev tagged unshared enc es :
    varint_of (2 * zlen unshared) tagged ->
    encodes unshared enc es ->
    encodes prev (tagged ++ unshared ++ enc) (unshared :: es)
| encodes_shared prev tagged shared n unshared enc es :
    varint_of (2 * zlen unshared + 1) tagged -> varint_of (n - 1) shared -> 1 <= n <= zlen prev ->
    encodes (ztake n prev ++ unshared) enc es ->
    encodes prev (tagged ++ shared ++ unshared ++ enc) ((ztake n prev ++ unshared) :: es).
(** A representation of a set with the elements [es]: the first element shares nothing. *)
Definition set_encoding (enc : list Z) (es : list (list Z)) : Prop := encodes [] enc es.

(** Lexicographic comparison of sequences of strings *)
Fixpoint lex_cmp_list (a b : list (list Z)) : comparison :=
  match a, b with
  | [], [] => Eq
  | [], _ :: _ => Lt
  | _ :: _, [] => Gt
  | x :: a', y :: b' => match lex_cmp x y with Eq => lex_cmp_list a' b' | c => c end
  end.

(** [shares prev ps]: each pair of a prefix and a suffix has its prefix shared with the previous string (linear_sorted_string_set.h:394),
    the string before the first one being [prev]. *)
Fixpoint shares (prev : list Z) (ps : list (list Z * list Z)) : Prop :=
  match ps with
  | [] => True
  | (p, s) :: ps' => (exists n, p = ztake n prev /\ 0 <= n <= zlen prev) /\ shares (p ++ s) ps'
  end.

(** [follows last es]: the elements are sorted and unique, also after the element [last] if there is one. *)
Definition follows (last : option (list Z)) (es : list (list Z)) : Prop :=
  increasing (match last with None => es | Some l => l :: es end).
