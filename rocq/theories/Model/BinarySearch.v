(** Model of riegeli/base/binary_search.h.

    Positions and the state of the caller, which [test()] and [traits.Middle()] may read and change, are arbitrary types.
    [None] is a loop out of fuel (here or in a callback); the theorems exclude it. *)
From Verif Require Import Base.Bytes.

(** riegeli/base/compare.h:33-39: PartialOrdering *)
Inductive ordering := Less | Equivalent | Greater | Unordered.
(** [ordering >= 0] *)
Definition ge0 (o : ordering) : bool := match o with Equivalent | Greater => true | Less | Unordered => false end.

Section BinarySearch.
  Context {St Pos : Type}.
  Variable Middle : Pos -> Pos -> St -> option (option Pos * St).
  Variable Empty : Pos -> Pos -> bool.
  (** [test()] returning SearchGuide: the ordering and the next position. *)
  Variable test : Pos -> St -> option ((ordering * Pos) * St).

  (** binary_search.h:383-445: [BinarySearch_again] is the code from the label [again], [BinarySearch_scan] is the [for] loop. *)
  Fixpoint BinarySearch_again (fuel : nat) (low high : Pos) (greater_result : ordering * Pos) (st : St)
      : option ((ordering * Pos) * St) :=
    match fuel with
    | O => None
    | S fuel' =>
        match Middle low high st with
        | None => None
        | Some (None, st) => Some (greater_result, st)
        | Some (Some middle, st) => BinarySearch_scan fuel' low high greater_result middle middle false st
        end
    end
  with BinarySearch_scan (fuel : nat) (low high : Pos) (greater_result : ordering * Pos)
      (middle_before_unordered middle : Pos) (unordered_found : bool) (st : St) : option ((ordering * Pos) * St) :=
    match fuel with
    | O => None
    | S fuel' =>
        match test middle st with
        | None => None
        | Some ((o, next), st) =>
            match o with
            | Less =>
                let greater_result := if negb (ge0 (fst greater_result)) then (Less, snd greater_result) else greater_result in
                BinarySearch_again fuel' next high greater_result st
            | Equivalent => Some ((Equivalent, next), st)
            | Greater =>
                if unordered_found then BinarySearch_again fuel' low middle_before_unordered (Greater, next) st
                else BinarySearch_again fuel' low next (Greater, next) st
            | Unordered =>
                if Empty next high then BinarySearch_again fuel' low middle_before_unordered greater_result st
                else BinarySearch_scan fuel' low high greater_result middle_before_unordered next true st
            end
        end
    end.
  Definition BinarySearch (fuel : nat) (low high : Pos) (st : St) : option ((ordering * Pos) * St) :=
    BinarySearch_again fuel low high (Unordered, high) st.
End BinarySearch.

(** binary_search.h:326-333: GetSearchGuide for a test which returns an ordering. *)
Definition GetSearchGuide {St Pos} (Next : Pos -> Pos) (test : Pos -> St -> option (ordering * St)) (pos : Pos) (st : St)
    : option ((ordering * Pos) * St) :=
  match test pos st with
  | None => None
  | Some (o, st) => Some ((o, if ge0 o then pos else Next pos), st)
  end.

(** binary_search.h:463-484: the variant with cancellation.  [test()] returns [None] to cancel.  The variant with a status
    (lines 500-521) differs in returning the status. *)
Definition CancelTest {St Pos} (test : Pos -> St -> option (option (ordering * Pos) * St)) (pos : Pos) (st : St * bool)
    : option ((ordering * Pos) * (St * bool)) :=
  match test pos (fst st) with
  | None => None
  | Some (None, s) => Some ((Equivalent, pos), (s, true))
  | Some (Some guide, s) => Some (guide, (s, snd st))
  end.
Definition BinarySearch_cancel {St Pos} (Middle : Pos -> Pos -> St -> option (option Pos * St)) Empty
    (test : Pos -> St -> option (option (ordering * Pos) * St)) (fuel : nat) (low high : Pos) (st : St)
    : option (option (ordering * Pos) * St) :=
  match BinarySearch (fun low high st => match Middle low high (fst st) with
                                         | None => None
                                         | Some (m, s) => Some (m, (s, snd st))
                                         end) Empty (CancelTest test) fuel low high (st, false) with
  | None => None
  | Some (result, (st, cancelled)) => Some (if cancelled then None else Some result, st)
  end.

(** binary_search.h:294-319: DefaultSearchTraits for integers.  Simplification: mathematical integers, i.e. either an unsigned
    type or a range whose width does not overflow. *)
Definition DefaultNext (current : Z) : Z := current + 1.
Definition DefaultEmpty (low high : Z) : bool := high <=? low.
Definition DefaultMiddle {St} (low high : Z) (st : St) : option (option Z * St) :=
  if high <=? low then Some (None, st) else Some (Some (low + (high - low) / 2), st).
(** binary_search.h:372-375 *)
Definition DefaultBinarySearch {St} (test : Z -> St -> option (ordering * St)) (fuel : nat) (low high : Z) (st : St) :=
  BinarySearch DefaultMiddle DefaultEmpty (GetSearchGuide DefaultNext test) fuel low high st.
