(** Model of riegeli/base/arithmetic.h, with the conversions which C++ applies to operands.

    A type is its signedness and number of bits; int has 32 bits.  [None] is a failed assertion. *)
From Verif Require Import Base.Bytes Model.WriteInt.

Record ty := Ty { sg : bool; bt : bits }.
Definition width (t : ty) : Z := num (bt t).
(** std::numeric_limits<T>::max(), min() *)
Definition max_of (t : ty) : Z := if sg t then 2 ^ (width t - 1) - 1 else 2 ^ width t - 1.
Definition min_of (t : ty) : Z := if sg t then - 2 ^ (width t - 1) else 0.
(** static_cast<T>(value); also what arithmetic in the type T does *)
Definition cast (t : ty) (v : Z) : Z := if sg t then (v + 2 ^ (width t - 1)) mod 2 ^ width t - 2 ^ (width t - 1) else v mod 2 ^ width t.
Definition int : ty := Ty true B32.
(** C++ [conv.prom], [expr.arith.conv] *)
Definition promote (t : ty) : ty := if width t <? 32 then int else t.
Definition common (t u : ty) : ty :=
  let t := promote t in let u := promote u in
  if Bool.eqb (sg t) (sg u) then if width t <? width u then u else t
  else let (s, n) := if sg t then (t, u) else (u, t) in if width s <=? width n then n else s.
Definition le_c (t : ty) (a : Z) (u : ty) (b : Z) : bool := cast (common t u) a <=? cast (common t u) b.
Definition lt_c (t : ty) (a : Z) (u : ty) (b : Z) : bool := cast (common t u) a <? cast (common t u) b.
(** MakeUnsignedT<T> *)
Definition unsigned (t : ty) : ty := Ty false (bt t).

(** arithmetic.h:81-121; from [b] to [a] *)
Definition IntCast (a b : ty) (value : Z) : option Z :=
  match sg a, sg b with
  | false, false => check (le_c b value a (max_of a)) (Some (cast a value))
  | false, true => check (le_c int 0 b value) (check (le_c (unsigned b) (cast (unsigned b) value) a (max_of a)) (Some (cast a value)))
  | true, false => check (le_c b value (unsigned a) (max_of a)) (Some (cast a value))
  | true, true => check (le_c a (min_of a) b value) (check (le_c b value a (max_of a)) (Some (cast a value)))
  end.
(** arithmetic.h:123-129 *)
Definition Arith_UnsignedCast (t : ty) (value : Z) : option Z := IntCast (unsigned t) t value.
(** arithmetic.h:131-142; 0 is an int *)
Definition Arith_NegatingUnsignedCast (t : ty) (value : Z) : option Z :=
  check (le_c t value int 0) (Some (cast (unsigned t) (cast (common int (unsigned t)) (0 - cast (common int (unsigned t)) (cast (unsigned t) value))))).
(** arithmetic.h:144-157, 169-182 *)
Definition SignedMin (a b : ty) (x y : Z) : Z := cast (common a b) (if le_c a x b y then x else y).
Definition SignedMax (a b : ty) (x y : Z) : Z := cast (common a b) (if le_c b y a x then x else y).
(** arithmetic.h:194-207, 219-232; IntersectionTypeT is the narrower type *)
Definition narrower (a b : ty) : ty := if width b <? width a then b else a.
Definition UnsignedMin (a b : ty) (x y : Z) : Z := cast (narrower a b) (cast (common a b) (if le_c a x b y then x else y)).
Definition UnsignedMax (a b : ty) (x y : Z) : Z := cast (common a b) (if le_c b y a x then x else y).
(** arithmetic.h:159-167, 184-192, 209-217, 234-243: more arguments, with their types.  UnsignedMax of unsigned types narrower than int does not compile for more than two arguments of different types (their common type is int) *)
Fixpoint SignedMinN (a : ty) (x : Z) (rest : list (ty * Z)) : Z := match rest with [] => x | (b, y) :: rest => SignedMinN (common a b) (SignedMin a b x y) rest end.
Fixpoint SignedMaxN (a : ty) (x : Z) (rest : list (ty * Z)) : Z := match rest with [] => x | (b, y) :: rest => SignedMaxN (common a b) (SignedMax a b x y) rest end.
Fixpoint UnsignedMinN (a : ty) (x : Z) (rest : list (ty * Z)) : Z := match rest with [] => x | (b, y) :: rest => UnsignedMinN (narrower a b) (UnsignedMin a b x y) rest end.
Fixpoint UnsignedMaxN (a : ty) (x : Z) (rest : list (ty * Z)) : Z := match rest with [] => x | (b, y) :: rest => UnsignedMaxN (common a b) (UnsignedMax a b x y) rest end.
(** arithmetic.h:373-385 PtrDistance(), for addresses in an array of elements of a given size; 0 is nullptr; size_t has 64 bits *)
Definition PtrDistance (size first last : Z) : option Z :=
  check (Bool.eqb (first =? 0) (last =? 0)) (check (first <=? last) (IntCast (Ty false B64) (Ty true B64) ((last - first) / size))).
(** arithmetic.h:245-258 *)
Definition UnsignedClamp (v mn mx : ty) (value min max : Z) : Z := UnsignedMax (narrower v mx) mn (UnsignedMin v mx value max) min.
(** arithmetic.h:260-307 *)
Definition SaturatingIntCast (a b : ty) (value : Z) : Z :=
  match sg a, sg b with
  | false, false => if lt_c a (max_of a) b value then max_of a else cast a value
  | false, true => if lt_c b value int 0 then 0 else if lt_c a (max_of a) (unsigned b) (cast (unsigned b) value) then max_of a else cast a value
  | true, false => if lt_c (unsigned a) (max_of a) b value then max_of a else cast a value
  | true, true => if lt_c b value a (min_of a) then min_of a else if lt_c a (max_of a) b value then max_of a else cast a value
  end.
(** arithmetic.h:309-337 *)
Definition SaturatingAdd2 (t : ty) (a b : Z) : Z :=
  if lt_c (promote t) (cast (promote t) (max_of t - a)) t b then max_of t else cast t (cast (promote t) (a + b)).
Definition SaturatingAdd (t : ty) (l : list Z) : Z := match l with [] => 0 | a :: l => fold_left (SaturatingAdd2 t) l a end.
(** arithmetic.h:339-347 *)
Definition SaturatingSub2 (t u : ty) (a b : Z) : option Z :=
  if lt_c t a u b then Some 0 else match IntCast t u b with Some b => Some (cast t (cast (promote t) (a - b))) | None => None end.
(** arithmetic.h:349-371; [alignment] is a power of 2 and [alignment - 1] fits in T; ~ and & and | of promoted values *)
Definition RoundDown (t : ty) (alignment value : Z) : Z :=
  let p := promote t in cast t (Z.land value (cast p (Z.lnot (alignment - 1)))).
Definition RoundUp (t : ty) (alignment value : Z) : Z :=
  let p := promote t in cast t (cast p (Z.lor (cast p (value - 1)) (alignment - 1) + 1)).
