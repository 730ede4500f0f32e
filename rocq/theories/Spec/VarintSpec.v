(** What a varint is, independently of the implementation. *)
From Verif Require Import Base.Bytes.

(** The base-128 value of a byte string, least significant group first. *)
Fixpoint base128 (l : list Z) : Z :=
  match l with [] => 0 | b :: l' => b mod 128 + 128 * base128 l' end.

(** A varint: continuation bit set in every byte except the last. *)
Definition is_varint (l : list Z) : Prop :=
  exists init b, l = init ++ [b] /\ 0 <= b < 128 /\ Forall (fun x => 128 <= x < 256) init.

(** The shortest representation: no trailing zero byte, except for 0 itself. *)
Definition is_shortest (l : list Z) : Prop := length l = 1%nat \/ last l 0 <> 0.
