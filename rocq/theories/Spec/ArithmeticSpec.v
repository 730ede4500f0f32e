(** Mathematical meaning of the functions of arithmetic.h. *)
From Verif Require Import Base.Bytes Model.WriteInt Model.Arithmetic.

(** The values of a type *)
Definition fits (t : ty) (v : Z) : Prop := if sg t then - 2 ^ (width t - 1) <= v < 2 ^ (width t - 1) else 0 <= v < 2 ^ width t.
(** The value of the type nearest to [v] *)
Definition nearest (t : ty) (v r : Z) : Prop := fits t r /\ forall x, fits t x -> Z.abs (v - r) <= Z.abs (v - x).
(** The least and the greatest of some values *)
Definition least (r : Z) (l : list Z) : Prop := In r l /\ Forall (fun x => r <= x) l.
Definition greatest (r : Z) (l : list Z) : Prop := In r l /\ Forall (fun x => x <= r) l.
