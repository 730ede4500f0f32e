(** Records of a chunk: concatenated values and end positions. *)
From Verif Require Import Base.Bytes.

(** End positions of the records in their concatenation, which begins at [start]. *)
Fixpoint ends (start : Z) (rs : list (list Z)) : list Z :=
  match rs with
  | [] => []
  | r :: rs' => (start + zlen r) :: ends (start + zlen r) rs'
  end.
Definition total (rs : list (list Z)) : Z := zlen (concat rs).

(** Records given to an encoder: one, or several at once. *)
Inductive adding := One (r : list Z) | Many (rs : list (list Z)).
Definition added (a : adding) : list (list Z) := match a with One r => [r] | Many rs => rs end.
Definition all_added (l : list adding) : list (list Z) := flat_map added l.
