(** Running an encoder on a sequence of calls, one record or many records at a time. *)
From Verif Require Import Base.Bytes Model.SimpleChunk Spec.RecordsSpec.

(** AddRecords(Chain records, vector limits) is called with concatenated records and their end positions. *)
Definition add (a : adding) (e : encoder) : bool * encoder :=
  match a with One r => AddRecord r e | Many rs => AddRecords (concat rs) (ends 0 rs) e end.
Definition add_deferred (a : adding) (d : deferred) : bool * deferred :=
  match a with One r => Deferred_AddRecord r d | Many rs => Deferred_AddRecords (concat rs) (ends 0 rs) d end.
Definition add_all {S} (f : adding -> S -> bool * S) (l : list adding) (s : S) : S := fold_left (fun s a => snd (f a s)) l s.
