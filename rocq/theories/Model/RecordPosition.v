(** Model of RecordPosition in riegeli/records/record_position.{h,cc}.  A position is the pair of
    [chunk_begin_] and [record_index_]. *)
From Verif Require Import Base.Bytes Model.Endian Model.OrderedVarint.

(** record_position.h:74 [numeric()] *)
Definition rp_numeric (p : Z * Z) : Z := (fst p + snd p) mod 2 ^ 64.
(** record_position.h:86-99 [operator==], [RIEGELI_COMPARE] *)
Definition rp_equal (a b : Z * Z) : bool := (fst a =? fst b) && (snd a =? snd b).
Definition rp_compare (a b : Z * Z) : comparison :=
  match fst a ?= fst b with Eq => snd a ?= snd b | c => c end.

(** Outside the repository: absl::StrCat of an unsigned integer, absl::SimpleAtoi to uint64_t
    (absl/strings/numbers.cc: surrounding ASCII whitespace is stripped, a sign may come first, minus is rejected,
    then decimal digits with an overflow check before each step). *)
Fixpoint decimal_loop (fuel : nat) (n : Z) : list Z :=
  match fuel with
  | O => []
  | S f => (if n <? 10 then [] else decimal_loop f (n / 10)) ++ [48 + n mod 10]
  end.
Definition StrCat (n : Z) : list Z := decimal_loop (S (Z.to_nat (Z.log2 n))) n.
Definition is_space (c : Z) : bool := (9 <=? c) && (c <=? 13) || (c =? 32).
Fixpoint strip_front (l : list Z) : list Z :=
  match l with [] => [] | c :: l' => if is_space c then strip_front l' else l end.
Definition strip (l : list Z) : list Z := rev (strip_front (rev (strip_front l))).
Fixpoint parse_digits (value : Z) (l : list Z) : option Z :=
  match l with
  | [] => Some value
  | c :: l' =>
      if (c <? 48) || (57 <? c) then None
      else if (2 ^ 64 - 1) / 10 <? value then None
      else if 2 ^ 64 - 1 - (c - 48) <? value * 10 then None
      else parse_digits (value * 10 + (c - 48)) l'
  end.
Definition SimpleAtoi (l : list Z) : option Z :=
  match strip l with
  | [] => None
  | c :: l' =>
      if c =? 45 then None
      else if c =? 43 then (match l' with [] => None | _ => parse_digits 0 l' end)
      else parse_digits 0 (c :: l')
  end.

(** std::string_view::find, substr(0, sep) and substr(sep + 1) *)
Fixpoint split_at_char (c : Z) (l : list Z) : option (list Z * list Z) :=
  match l with
  | [] => None
  | x :: l' =>
      if x =? c then Some ([], l')
      else match split_at_char c l' with Some (a, b) => Some (x :: a, b) | None => None end
  end.

(** record_position.cc:46-48 [ToString] *)
Definition ToString (p : Z * Z) : list Z := StrCat (fst p) ++ [47] ++ StrCat (snd p).
(** record_position.cc:50-70 [FromString]; [None] is false (the position is unchanged). *)
Definition FromString (serialized : list Z) : option (Z * Z) :=
  match split_at_char 47 serialized with
  | None => None
  | Some (before, after) =>
      match SimpleAtoi before with
      | None => None
      | Some chunk_begin =>
          match SimpleAtoi after with
          | None => None
          | Some record_index => if 2 ^ 64 - 1 - chunk_begin <? record_index then None else Some (chunk_begin, record_index)
          end
      end
  end.
(** record_position.cc:72-79 [ToBytes] *)
Definition ToBytes (p : Z * Z) : list Z := WriteOrderedVarint64 (fst p) ++ WriteOrderedVarint64 (snd p).
(** record_position.cc:81-111 [FromBytes] *)
Definition FromBytes (serialized : list Z) : option (Z * Z) :=
  if zlen serialized =? 2 * 8 then
    let chunk_begin := ReadBigEndianArray (firstn 8 serialized) in
    let record_index := ReadBigEndianArray (firstn 8 (skipn 8 serialized)) in
    if 2 ^ 64 - 1 - chunk_begin <? record_index then None else Some (chunk_begin, record_index)
  else
    match ReadOrderedVarint64 serialized with
    | None => None
    | Some (chunk_begin, src) =>
        match ReadOrderedVarint64 src with
        | None => None
        | Some (record_index, src) =>
            if 2 ^ 64 - 1 - chunk_begin <? record_index then None
            else match src with [] => Some (chunk_begin, record_index) | _ => None end
        end
    end.
