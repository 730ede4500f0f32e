(** What a RecordReader over a valid file is: a cursor in the list of records, each with its position. *)
From Verif Require Import Base.Bytes Spec.BlockSpec.

(** A file as its chunks: where each begins, and its records. *)
Definition view := list (Z * list (list Z)).
Definition records_of (v : view) : list (list Z) := concat (map snd v).
(** The position of each record: the beginning of its chunk and its index in the chunk. *)
Definition positions_of (v : view) : list (Z * Z) :=
  flat_map (fun c => map (fun i => (fst c, i)) (zseq 0 (zlen (snd c)))) v.

(** RecordPosition::numeric() and the order of positions. *)
Definition numeric (p : Z * Z) : Z := fst p + snd p.
Definition before (p q : Z * Z) : bool := (fst p <? fst q) || ((fst p =? fst q) && (snd p <? snd q)).
Definition count {A} (f : A -> bool) (l : list A) : Z := zlen (filter f l).

(** Calls of a reader; [Reseek] is Seek(pos()). *)
Inductive reader_call := ReadNext | SeekToPos (p : Z * Z) | SeekNumeric (p : Z) | StepBack | Reseek.
(** What is observed: the record returned with last_pos(), or the result of the call. *)
Inductive reply := Rec (r : option (list Z)) (last : option (Z * Z)) | Flag (b : bool).

(** The cursor is the number of records before it.  Seeking moves it to the first record at or after
    the given position. *)
Definition cursor_step (v : view) (c : reader_call) (i : Z) : reply * Z :=
  match c with
  | ReadNext =>
      match nth_error (records_of v) (Z.to_nat i) with
      | Some r => (Rec (Some r) (nth_error (positions_of v) (Z.to_nat i)), i + 1)
      | None => (Rec None None, i)
      end
  | SeekToPos p => (Flag true, count (fun q => before q p) (positions_of v))
  | SeekNumeric p => (Flag true, count (fun q => numeric q <? p) (positions_of v))
  | StepBack => if i =? 0 then (Flag false, 0) else (Flag true, i - 1)
  | Reseek => (Flag true, i)
  end.
Fixpoint cursor_run (v : view) (cs : list reader_call) (i : Z) : list reply :=
  match cs with
  | [] => []
  | c :: cs' => let '(o, i) := cursor_step v c i in o :: cursor_run v cs' i
  end.

(** Positions which may be sought to, in a file with the given size: in a chunk which is there, or the end of the
    file. *)
Definition call_ok (v : view) (size : Z) (c : reader_call) : Prop :=
  match c with
  | SeekToPos p => (In (fst p) (map fst v) /\ 0 <= snd p) \/ p = (size, 0)
  | SeekNumeric p => 0 <= p <= size
  | _ => True
  end.

(** Replies of consecutive ReadRecord calls. *)
Definition record_replies (v : view) : list reply :=
  map (fun x => Rec (Some (fst x)) (Some (snd x))) (combine (records_of v) (positions_of v)).
