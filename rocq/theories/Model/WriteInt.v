(** Model of riegeli/bytes/write_int_internal.{h,cc} and riegeli/text/write_int.{h,cc}: integers as decimal and hexadecimal text.

    A function which writes characters at a pointer returns the characters; [None] is a failed RIEGELI_ASSERT (also of IntCast) or a write outside of the array or of the space which was asked for.
    Both variants of hexadecimal writing are modelled: with SSSE3 instructions and without.  Of a 128-bit register the bytes which are stored are modelled. *)
From Verif Require Import Base.Bytes.

Definition check {A} (b : bool) (k : option A) : option A := if b then k else None.
(** One piece of text and then another one *)
Definition cat (a b : option (list Z)) : option (list Z) := match a, b with Some x, Some y => Some (x ++ y) | _, _ => None end.
Infix "+++" := cat (at level 60, right associativity).
(** memset(dest, '0', n) *)
Definition fill0 (n : Z) : list Z := repeat 48 (Z.to_nat n).
(** arithmetic.h:339-347 *)
Definition SaturatingSub (a b : Z) : Z := if a <? b then 0 else a - b.

(** The types of integers, by the number of bits *)
Inductive bits := B8 | B16 | B32 | B64 | B128.
Definition num (b : bits) : Z := match b with B8 => 8 | B16 => 16 | B32 => 32 | B64 => 64 | B128 => 128 end.
(** arithmetic.h:131-142: UnsignedCast(), NegatingUnsignedCast() *)
Definition UnsignedCast (b : bits) (v : Z) : Z := v mod 2 ^ num b.
Definition NegatingUnsignedCast (b : bits) (v : Z) : option Z := check (v <=? 0) (Some ((0 - v mod 2 ^ num b) mod 2 ^ num b)).
(** std::numeric_limits<T>::digits, digits10 *)
Definition digits (signed : bool) (b : bits) : Z := if signed then num b - 1 else num b.
Definition digits10 (signed : bool) (b : bits) : Z := digits signed b * 643 / 2136.

(** ** Decimal *)
(** write_int_internal.cc:37-42, 44-70; an entry of the table is the pair of digits *)
Definition WriteDec1Impl (src : Z) : option (list Z) := check (src <? 10) (Some [48 + src]).
Definition WriteDec2Impl (src : Z) : option (list Z) := check (src <? 100) (Some [48 + src / 10; 48 + src mod 10]).
(** write_int_internal.cc:76-134; the labels *)
Definition write_2_digits (src : Z) : option (list Z) := WriteDec2Impl src.
Definition write_4_digits (src : Z) : option (list Z) := WriteDec2Impl (src / 100) +++ write_2_digits (src mod 100).
Definition write_6_digits (src : Z) : option (list Z) := WriteDec2Impl (src / 10000) +++ write_4_digits (src mod 10000).
Definition write_8_digits (src : Z) : option (list Z) := WriteDec2Impl (src / 1000000) +++ write_6_digits (src mod 1000000).
Definition WriteDecImpl32 (src width : Z) : option (list Z) :=
  if (src <? 100) && (width <=? 2) then
    if (10 <=? src) || (width =? 2) then write_2_digits src else WriteDec1Impl src
  else if (src <? 10000) && (width <=? 4) then
    if (1000 <=? src) || (width =? 4) then write_4_digits src else WriteDec1Impl (src / 100) +++ write_2_digits (src mod 100)
  else if (src <? 1000000) && (width <=? 6) then
    if (100000 <=? src) || (width =? 6) then write_6_digits src else WriteDec1Impl (src / 10000) +++ write_4_digits (src mod 10000)
  else if (src <? 100000000) && (width <=? 8) then
    if (10000000 <=? src) || (width =? 8) then write_8_digits src else WriteDec1Impl (src / 1000000) +++ write_6_digits (src mod 1000000)
  else if (src <? 1000000000) && (width <=? 9) then WriteDec1Impl (src / 100000000) +++ write_8_digits (src mod 100000000)
  else Some (if 10 <? width then fill0 (width - 10) else []) +++ WriteDec2Impl (src / 100000000) +++ write_8_digits (src mod 100000000).
(** write_int_internal.cc:136-159 *)
Definition WriteDecImpl64 (src width : Z) : option (list Z) :=
  if src <=? 2 ^ 32 - 1 then WriteDecImpl32 src width
  else
    let over_10_digits := src / 10000000000 in
    let long := (10000000000 <=? src) || (10 <? width) in
    (if long then check (over_10_digits <? 2 ^ 32) (WriteDecImpl32 over_10_digits (SaturatingSub width 10)) else Some []) +++
    (let src := if long then src mod 10000000000 else src in
     check (src / 100000000 <? 2 ^ 32) (WriteDec2Impl (src / 100000000) +++ check (src mod 100000000 <? 2 ^ 32) (WriteDecImpl32 (src mod 100000000) 8))).
(** write_int_internal.cc:161-187 *)
Definition k1e20 : Z := 5 * 2 ^ 64 + 7766279631452241920.
Definition WriteDecImpl128 (src width : Z) : option (list Z) :=
  if src <=? 2 ^ 64 - 1 then WriteDecImpl64 src width
  else check (k1e20 =? 10000000000 * 10000000000)
    (let over_20_digits := src / k1e20 in
     let long := (k1e20 <=? src) || (20 <? width) in
     (if long then check (over_20_digits <? 2 ^ 64) (WriteDecImpl64 over_20_digits (SaturatingSub width 20)) else Some []) +++
     (let src := if long then src mod k1e20 else src in
      check (src / 1000000000000000000 <? 2 ^ 32) (WriteDec2Impl (src / 1000000000000000000) +++
      check (src mod 1000000000000000000 <? 2 ^ 64) (WriteDecImpl64 (src mod 1000000000000000000) 18)))).
(** write_int_internal.cc:191-196, 237-247: WriteDec() of an unsigned type; without a width it is 0 *)
Definition WriteDec (b : bits) (src width : Z) : option (list Z) :=
  match b with B8 | B16 | B32 => WriteDecImpl32 src width | B64 => WriteDecImpl64 src width | B128 => WriteDecImpl128 src width end.
(** write_int_internal.h:49-75, 109-140: WriteDecUnsigned() *)
Definition WriteDecUnsigned (b : bits) (src width : Z) : option (list Z) := WriteDec b src (if width <=? 1 then 0 else width).
(** The smallest type for which WriteDec() is defined *)
Definition wide (b : bits) : bits := match b with B8 | B16 => B32 | _ => b end.
(** write_int_internal.cc:198-235, 249-289, write_int_internal.h:143-170 *)
Definition WriteDecSigned (b : bits) (src width : Z) : option (list Z) :=
  let width := if width <=? 1 then 0 else width in
  if 0 <=? src then WriteDec (wide b) (UnsignedCast (wide b) src) width
  else match NegatingUnsignedCast (wide b) src with Some a => Some [45] +++ WriteDec (wide b) a (SaturatingSub width 1) | None => None end.

(** write_int_internal.cc:291-327: the loops; a value has less than 64 pairs of digits.  The characters are before the pointer *)
Fixpoint back (fuel : nat) (limit : Z) (rest : Z -> option (list Z)) (src : Z) : option (list Z) :=
  match fuel with
  | O => None
  | S fuel => if limit <? src then back fuel limit rest (src / 100) +++ WriteDec2Impl (src mod 100) else rest src
  end.
Definition WriteDecBackward32 (src : Z) : option (list Z) := back 64 99 (fun src => if 10 <=? src then WriteDec2Impl src else WriteDec1Impl src) src.
Definition WriteDecBackward64 (src : Z) : option (list Z) := back 64 (2 ^ 32 - 1) WriteDecBackward32 src.
Definition WriteDecBackward128 (src : Z) : option (list Z) := back 64 (2 ^ 64 - 1) WriteDecBackward64 src.
(** write_int_internal.h:181-232, write_int_internal.cc:329-360 *)
Definition WriteDecUnsignedBackward (b : bits) (src : Z) : option (list Z) :=
  match b with B8 | B16 | B32 => WriteDecBackward32 src | B64 => WriteDecBackward64 src | B128 => WriteDecBackward128 src end.
Definition WriteDecSignedBackward (b : bits) (src : Z) : option (list Z) :=
  if 0 <=? src then WriteDecUnsignedBackward (wide b) (UnsignedCast (wide b) src)
  else match NegatingUnsignedCast (wide b) src with Some a => Some [45] +++ WriteDecUnsignedBackward (wide b) a | None => None end.

(** absl::bit_width() *)
Definition bit_width (v : Z) : Z := if v =? 0 then 0 else Z.log2 v + 1.
(** write_int_internal.cc:362-397; the table for a type of [n] bits, from the state before an entry: size, threshold, upper_bound *)
Fixpoint MakeEntries (n : Z) (k : nat) (size threshold upper_bound : Z) : list (Z * Z) :=
  match k with
  | O => []
  | S k => (size, threshold) ::
      (if size <? n * 643 / 2136 + 1 then
         let upper_bound := (upper_bound * 4 + 3) mod 2 ^ n in
         let next_threshold := (threshold * 8 + threshold * 2) mod 2 ^ n in
         if next_threshold <=? upper_bound then MakeEntries n k (size + 1) next_threshold upper_bound else MakeEntries n k size threshold upper_bound
       else MakeEntries n k size threshold upper_bound)
  end.
Definition MakeStringifiedSizeEntries (n : Z) : list (Z * Z) :=
  match MakeEntries n (Z.to_nat (n / 2 + 1)) 1 1 3 with [] => [] | (s, _) :: l => (s, 0) :: l end.
(** write_int_internal.cc:399-427, write_int_internal.h:241-265 *)
Definition StringifiedSizeUnsigned (b : bits) (src : Z) : option Z :=
  let width := match b with B128 => if src / 2 ^ 64 =? 0 then bit_width (src mod 2 ^ 64) else bit_width (src / 2 ^ 64) + 64 | _ => bit_width src end in
  match nth_error (MakeStringifiedSizeEntries (num (wide b))) (Z.to_nat (width / 2)) with
  | Some (size, threshold) => Some (size - (if src <? threshold then 1 else 0))
  | None => None
  end.
(** write_int_internal.cc:429-451 *)
Definition StringifiedSizeSigned (b : bits) (src : Z) : option Z :=
  if 0 <=? src then StringifiedSizeUnsigned (wide b) (UnsignedCast (wide b) src)
  else match NegatingUnsignedCast (wide b) src with Some a => option_map (fun n => n + 1) (StringifiedSizeUnsigned (wide b) a) | None => None end.

(** ** Hexadecimal *)
Section Hex.
Context (ssse3 upper : bool).
(** write_int.cc:41-51 HexDigits, 120-128 DigitCaseDependent, 132-140 *)
Definition HexDigits : list Z := [48; 49; 50; 51; 52; 53; 54; 55; 56; 57] ++ (if upper then [65; 66; 67; 68; 69; 70] else [97; 98; 99; 100; 101; 102]).
Definition DigitCaseDependent (for_lower for_upper : Z) : Z := if upper then for_upper else for_lower.
Definition WriteHex1Impl (src : Z) : option (list Z) := check (src <? 16) (Some [src + (if src <? 10 then 48 else DigitCaseDependent 97 65 - 10)]).
(** write_int.cc:53-116 with SSSE3, for [n] bytes: srli of the whole lane, unpacklo, and, shuffle *)
Definition WriteHexRegister (n : nat) (src : Z) : list Z :=
  let value := be_bytes n src in
  let shifted := le_bytes n (Z.shiftr (le_val value) 4) in
  let interleaved := flat_map (fun p => [fst p; snd p]) (combine shifted value) in
  map (fun b => nth (Z.to_nat (Z.land b 15)) HexDigits 0) interleaved.
(** write_int.cc:142-163 *)
Definition WriteHex2Impl (src : Z) : list Z :=
  if ssse3 then WriteHexRegister 1 src
  else
    let out := Z.land (Z.lor src (Z.shiftl src 4)) 3855 (* 0x0f0f *) in
    let out := (out + 1542 (* 0x0606 *)) mod 2 ^ 16 in
    let out := (out + DigitCaseDependent 39 7 * Z.shiftr (Z.land out 4112 (* 0x1010 *)) 4) mod 2 ^ 16 in
    let out := (out + 10794 (* 0x2a2a *)) mod 2 ^ 16 in
    be_bytes 2 out.
(** write_int.cc:165-189 *)
Definition WriteHex4Impl (src : Z) : list Z :=
  if ssse3 then WriteHexRegister 2 src
  else
    let out := Z.land (Z.lor src (u32 (Z.shiftl src 12))) 252645135 (* 0x0f0f0f0f *) in
    let out := u32 (out + 101058054 (* 0x06060606 *)) in
    let out := u32 (out + u32 (DigitCaseDependent 39 7 * Z.shiftr (Z.land out 269488144 (* 0x10101010 *)) 4)) in
    let out := u32 (out + 707406378 (* 0x2a2a2a2a *)) in
    let out := Z.lor (Z.lor (u32 (Z.shiftl out 24)) (Z.shiftr out 24)) (Z.land out 16776960 (* 0x00ffff00 *)) in
    le_bytes 4 out.
(** write_int.cc:191-200, 202-212, 214-218 *)
Definition WriteHex8Impl (src : Z) : list Z := if ssse3 then WriteHexRegister 4 src else WriteHex4Impl (src / 2 ^ 16) ++ WriteHex4Impl (src mod 2 ^ 16).
Definition WriteHex16Impl (src : Z) : list Z := if ssse3 then WriteHexRegister 8 src else WriteHex8Impl (src / 2 ^ 32) ++ WriteHex8Impl (src mod 2 ^ 32).
Definition WriteHex32Impl (src : Z) : list Z := WriteHex16Impl (src / 2 ^ 64) ++ WriteHex16Impl (src mod 2 ^ 64).
(** write_int.cc:222-236 *)
Definition WriteHexImpl8 (src width : Z) : option (list Z) :=
  if (src <? 16) && (width <=? 1) then WriteHex1Impl src else Some ((if 2 <? width then fill0 (width - 2) else []) ++ WriteHex2Impl src).
(** write_int.cc:238-263, 266-293, 296-325: with SSSE3, for [n] digits *)
Definition WriteHexPart (n : Z) (out : list Z) (src width : Z) : list Z :=
  if (2 ^ (4 * (n - 1)) <=? src) || (n <=? width) then (if n <? width then fill0 (width - n) else []) ++ out
  else let width := Z.max width ((bit_width (Z.lor src 1) + 3) / 4) in zslice (n - width) width out.
Definition WriteHexImpl16 (src width : Z) : option (list Z) :=
  if ssse3 then Some (WriteHexPart 4 (WriteHex4Impl src) src width)
  else if src <=? 2 ^ 8 - 1 then WriteHexImpl8 src width
  else check (src / 2 ^ 8 <? 2 ^ 8) (WriteHexImpl8 (src / 2 ^ 8) (SaturatingSub width 2) +++ Some (WriteHex2Impl (src mod 2 ^ 8))).
Definition WriteHexImpl32 (src width : Z) : option (list Z) :=
  if ssse3 then Some (WriteHexPart 8 (WriteHex8Impl src) src width)
  else if src <=? 2 ^ 16 - 1 then WriteHexImpl16 src width
  else check (src / 2 ^ 16 <? 2 ^ 16) (WriteHexImpl16 (src / 2 ^ 16) (SaturatingSub width 4) +++ Some (WriteHex4Impl (src mod 2 ^ 16))).
Definition WriteHexImpl64 (src width : Z) : option (list Z) :=
  if ssse3 then Some (WriteHexPart 16 (WriteHex16Impl src) src width)
  else if src <=? 2 ^ 32 - 1 then WriteHexImpl32 src width
  else check (src / 2 ^ 32 <? 2 ^ 32) (WriteHexImpl32 (src / 2 ^ 32) (SaturatingSub width 8) +++ Some (WriteHex8Impl (src mod 2 ^ 32))).
(** write_int.cc:328-338 *)
Definition WriteHexImpl128 (src width : Z) : option (list Z) :=
  if src / 2 ^ 64 =? 0 then WriteHexImpl64 (src mod 2 ^ 64) width
  else WriteHexImpl64 (src / 2 ^ 64) (SaturatingSub width 16) +++ Some (WriteHex16Impl (src mod 2 ^ 64)).
(** write_int.h:423-479 *)
Definition WriteHexUnsigned (b : bits) (src width : Z) : option (list Z) :=
  if width =? num b / 4 then Some (match b with B8 => WriteHex2Impl src | B16 => WriteHex4Impl src | B32 => WriteHex8Impl src | B64 => WriteHex16Impl src | B128 => WriteHex32Impl src end)
  else let width := if width <=? 1 then 0 else width in
    match b with B8 => WriteHexImpl8 src width | B16 => WriteHexImpl16 src width | B32 => WriteHexImpl32 src width | B64 => WriteHexImpl64 src width | B128 => WriteHexImpl128 src width end.
(** write_int.h:269-309 *)
Definition HexStringifiedSizeUnsigned (b : bits) (src : Z) : Z :=
  match b with
  | B8 => if src <? 16 then 1 else 2
  | B128 => ((if src / 2 ^ 64 =? 0 then bit_width (Z.lor (src mod 2 ^ 64) 1) else bit_width (src / 2 ^ 64) + 64) + 3) / 4
  | _ => (bit_width (Z.lor src 1) + 3) / 4
  end.
(** write_int.h:311-318 *)
Definition HexStringifiedSizeSigned (b : bits) (src : Z) : option Z :=
  if 0 <=? src then Some (HexStringifiedSizeUnsigned b (UnsignedCast b src))
  else match NegatingUnsignedCast b src with Some a => Some (HexStringifiedSizeUnsigned b a + 1) | None => None end.
(** write_int.h:516-523 *)
Definition MaxLengthWriteHexUnsignedBackward (b : bits) : Z := num b / 4.
(** write_int.h:525-585, write_int.cc:458-512: a fixed number of digits before the pointer, of which the last ones count *)
Definition WriteHexUnsignedBackward (b : bits) (src width : Z) : option (list Z) :=
  check (width <=? num b / 4)
  (let out := match b with B8 => WriteHex2Impl src | B16 => WriteHex4Impl src | B32 => WriteHex8Impl src | B64 => WriteHex16Impl src | B128 => WriteHex32Impl src end in
   let n := Z.max width (HexStringifiedSizeUnsigned b src) in check (n <=? zlen out) (Some (zdrop (zlen out - n) out))).

(** ** HexType: write_int.h:679-745, for an unsigned and for a signed type *)
Definition HexWriteTo (signed : bool) (b : bits) (value width : Z) : option (list Z) :=
  let kMaxNumDigits := (digits signed b + 3) / 4 in
  if signed then
    let pushed := Z.max width (kMaxNumDigits + 1) in
    match (if 0 <=? value then WriteHexUnsigned b (UnsignedCast b value) width
           else match NegatingUnsignedCast b value with Some a => Some [45] +++ WriteHexUnsigned b a (SaturatingSub width 1) | None => None end) with
    | Some s => check (zlen s <=? pushed) (Some s) | None => None end
  else match WriteHexUnsigned b value width with Some s => check (zlen s <=? Z.max width kMaxNumDigits) (Some s) | None => None end.
Definition HexStringify (signed : bool) (b : bits) (value width : Z) : option (list Z) :=
  let kMaxNumDigits := MaxLengthWriteHexUnsignedBackward b in
  let positive (v : Z) : option (list Z) :=
    Some (if kMaxNumDigits <? width then fill0 (width - kMaxNumDigits) else []) +++ WriteHexUnsignedBackward b v (if kMaxNumDigits <? width then kMaxNumDigits else width) in
  if signed then
    if 0 <=? value then positive (UnsignedCast b value)
    else match NegatingUnsignedCast b value with
      | Some a => if kMaxNumDigits + 1 <? width then Some [45] +++ Some (fill0 (width - (kMaxNumDigits + 1))) +++ WriteHexUnsignedBackward b a kMaxNumDigits
                  else Some [45] +++ WriteHexUnsignedBackward b a (SaturatingSub width 1)
      | None => None end
  else positive value.
Definition HexStringifiedSize (signed : bool) (b : bits) (value width : Z) : option Z :=
  if signed then option_map (Z.max width) (HexStringifiedSizeSigned b value)
  else let kMaxNumDigits := (digits signed b + 3) / 4 in if kMaxNumDigits <=? width then Some width else Some (Z.max width (HexStringifiedSizeUnsigned b value)).
End Hex.

(** ** DecType: write_int.h:587-677 *)
Definition DecWriteTo (signed : bool) (b : bits) (value width : Z) : option (list Z) :=
  let kMaxNumDigits := digits10 signed b + 1 in
  if signed then match WriteDecSigned b value width with Some s => check (zlen s <=? Z.max width (kMaxNumDigits + 1)) (Some s) | None => None end
  else match WriteDecUnsigned b value width with Some s => check (zlen s <=? Z.max width kMaxNumDigits) (Some s) | None => None end.
Definition DecStringify (signed : bool) (b : bits) (value width : Z) : option (list Z) :=
  let kMaxNumDigits := digits10 signed b + 1 in
  if signed then
    if 0 <=? value then
      match WriteDecUnsignedBackward b (UnsignedCast b value) with
      | Some s => check (zlen s <=? kMaxNumDigits + 1) (Some ((if zlen s <? width then fill0 (width - zlen s) else []) ++ s)) | None => None end
    else match NegatingUnsignedCast b value with
      | Some a => match WriteDecUnsignedBackward b a with
        | Some s => let length := zlen s + 1 in check (length <=? kMaxNumDigits + 1)
            (Some (if length <? width then [45] ++ fill0 (width - length) ++ s else [45] ++ s))
        | None => None end
      | None => None end
  else match WriteDecUnsignedBackward b value with
    | Some s => check (zlen s <=? kMaxNumDigits) (Some ((if zlen s <? width then fill0 (width - zlen s) else []) ++ s)) | None => None end.
Definition DecStringifiedSize (signed : bool) (b : bits) (value width : Z) : option Z :=
  option_map (Z.max width) (if signed then StringifiedSizeSigned b value else StringifiedSizeUnsigned b value).

(** writer.cc:48-65, backward_writer.cc:49-68: Write(int) and so on *)
Definition Writer_Write (signed : bool) (b : bits) (value : Z) : option (list Z) :=
  let kMaxNumDigits := digits10 signed b + 1 in
  match (if signed then WriteDecSigned b value 0 else WriteDecUnsigned b value 0) with Some s => check (zlen s <=? (if signed then kMaxNumDigits + 1 else kMaxNumDigits)) (Some s) | None => None end.
Definition BackwardWriter_Write (signed : bool) (b : bits) (value : Z) : option (list Z) :=
  let kMaxNumDigits := digits10 signed b + 1 in
  match (if signed then WriteDecSignedBackward b value else WriteDecUnsignedBackward b value) with Some s => check (zlen s <=? (if signed then kMaxNumDigits + 1 else kMaxNumDigits)) (Some s) | None => None end.
