(** Decimal numbers, and which positions exist. *)
From Verif Require Import Base.Bytes.

(** [l] is the number [n] in decimal: at least one digit; digits have the usual values. *)
Definition is_decimal (n : Z) (l : list Z) : Prop :=
  l <> [] /\ Forall (fun c => 48 <= c <= 57) l /\ fold_left (fun a c => a * 10 + (c - 48)) l 0 = n.
(** The invariant of RecordPosition. *)
Definition position_ok (p : Z * Z) : Prop := 0 <= fst p /\ 0 <= snd p /\ fst p + snd p < 2 ^ 64.
Definition position_lt (p q : Z * Z) : Prop := fst p < fst q \/ fst p = fst q /\ snd p < snd q.
