(** What the users of Dec(), Hex(), HexUpperCase() and Writer::Write() of integers rely on. *)
From Verif Require Import Base.Bytes Model.WriteInt.

Definition digit_char (upper : bool) (d : Z) : Z := if d <? 10 then 48 + d else (if upper then 65 else 97) + (d - 10).
(** [s] is the numeral of [n], padded with zeros to at least [width] characters, with no other leading zeros *)
Definition numeral (base : Z) (upper : bool) (n width : Z) (s : list Z) : Prop := exists ds,
  s = map (digit_char upper) ds /\ Forall (fun d => 0 <= d < base) ds /\ fold_left (fun a d => base * a + d) ds 0 = n /\
  1 <= zlen s /\ width <= zlen s /\ (Z.max 1 width < zlen s -> hd 0 ds <> 0).
(** The same with the sign, which counts to the width *)
Definition text (base : Z) (upper : bool) (v width : Z) (s : list Z) : Prop :=
  if v <? 0 then exists t, s = 45 :: t /\ numeral base upper (- v) (width - 1) t else numeral base upper v width s.

(** The values of a type *)
Definition value_of (signed : bool) (b : bits) (v : Z) : Prop := if signed then - 2 ^ (num b - 1) <= v < 2 ^ (num b - 1) else 0 <= v < 2 ^ num b.
