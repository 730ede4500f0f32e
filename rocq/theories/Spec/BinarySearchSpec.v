(** What a binary search should find, and how. *)
From Coq Require Import List.
From Verif Require Import Base.Bytes Model.BinarySearch.

(** Positions low <= p < high are classified by [t]; all [Less] precede all [Equivalent], these precede all [Greater];
    [Unordered] anywhere. *)
Definition monotone (t : Z -> ordering) (low high : Z) : Prop :=
  forall p q, low <= p < high -> low <= q < high ->
    (t p = Less -> t q = Equivalent -> p < q) /\ (t p = Equivalent -> t q = Greater -> p < q) /\ (t p = Less -> t q = Greater -> p < q).
Definition found_ok (t : Z -> ordering) (low high : Z) (result : ordering * Z) : Prop :=
  let found := snd result in
  match fst result with
  | Equivalent => low <= found < high /\ t found = Equivalent
  | Greater => low <= found < high /\ t found = Greater /\
      forall p, low <= p < high -> t p <> Equivalent /\ (p < found -> t p <> Greater)
  | Less => found = high /\ (exists p, low <= p < high /\ t p = Less) /\
      forall p, low <= p < high -> t p <> Equivalent /\ t p <> Greater
  | Unordered => found = high /\ forall p, low <= p < high -> t p = Unordered
  end.

(** The history of a search: arguments of [test()] and its results, in the order of calls.
    After an equivalent position nothing is tested; after a [Less] one only later positions; after a [Greater] one
    only earlier positions; no position is tested again. *)
Definition may_follow (first later : Z * ordering) : Prop :=
  fst first <> fst later /\ snd first <> Equivalent /\
  (snd first = Less -> fst first < fst later) /\ (snd first = Greater -> fst later < fst first).
Definition history_ok (low high : Z) (log : list (Z * ordering)) : Prop :=
  ForallOrdPairs may_follow log /\ Forall (fun e => low <= fst e < high) log.
(** The result is the last position for which [test()] returned [Equivalent] or [Greater]. *)
Definition last_found (log : list (Z * ordering)) : option (ordering * Z) :=
  match filter (fun e => ge0 (snd e)) (rev log) with
  | [] => None
  | (p, o) :: _ => Some (o, p)
  end.

(** Records, classified by [f], as positions from 0 to their number. *)
Definition classify (f : list Z -> ordering) (rs : list (list Z)) (i : Z) : ordering :=
  match nth_error rs (Z.to_nat i) with Some r => f r | None => Unordered end.
