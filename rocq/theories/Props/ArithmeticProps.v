(** C52: conversions of integers, saturating arithmetic, rounding. *)
From Verif Require Import Base.Bytes Model.WriteInt Model.Arithmetic Spec.ArithmeticSpec Proof.ArithmeticProof.

(** IntCast<A>(value) for a value of the type B is the same integer if A has it, otherwise an assertion fails *)
Theorem IntCast_exact : forall a b v, fits b v -> (fits a v -> IntCast a b v = Some v) /\ (~ fits a v -> IntCast a b v = None).
Proof.
  intros a b v F. rewrite (cast_ok a b v F). destruct (Z.leb_spec (min_of a) v), (Z.leb_spec v (max_of a)); cbn [andb]; rewrite fits_bounds; split; intros; try reflexivity; exfalso; lia.
Qed.
(** UnsignedCast(), NegatingUnsignedCast(), also for the least value of the type *)
Theorem UnsignedCast_exact : forall t v, sg t = true -> fits t v ->
  Arith_UnsignedCast t v = (if 0 <=? v then Some v else None) /\ Arith_NegatingUnsignedCast t v = (if v <=? 0 then Some (- v) else None).
Proof.
  intros t v S F. split; [|now apply neg_cast_ok]. unfold Arith_UnsignedCast. rewrite (cast_ok _ _ _ F). change (min_of (unsigned t)) with 0. destruct (Z.leb_spec 0 v); [|reflexivity]. pose proof (unsigned_fits t v F H) as U. apply fits_bounds in U. destruct (Z.leb_spec v (max_of (unsigned t))); [reflexivity|lia].
Qed.
(** SaturatingIntCast<A>(value) is the value of A which is nearest *)
Theorem SaturatingIntCast_nearest : forall a b v, fits b v -> nearest a v (SaturatingIntCast a b v).
Proof. intros a b v F. rewrite sat_cast_ok by exact F. apply clamp_nearest. Qed.
(** SaturatingAdd() of any number of values is the nearest to their sum; SaturatingSub() to the difference *)
Theorem SaturatingAdd_nearest : forall t l, sg t = false -> Forall (fits t) l -> nearest t (fold_right Z.add 0 l) (SaturatingAdd t l).
Proof.
  intros t l S F. rewrite add_ok by assumption. assert (fold_left Z.add l 0 = fold_right Z.add 0 l) as -> by (apply fold_symmetric; intros; lia).
  assert (0 <= fold_right Z.add 0 l) by (induction F as [|x l X F IH]; cbn [fold_right]; [lia|pose proof (fits_nonneg t x S X); lia]).
  pose proof (clamp_nearest t (fold_right Z.add 0 l)) as N. unfold min_of in N. rewrite S in N. rewrite Z.max_r in N; [exact N|]. pose proof (max_fits t). lia.
Qed.
Theorem SaturatingSub_nearest : forall t u a b, sg t = false -> sg u = false -> fits t a -> fits u b -> exists r, SaturatingSub2 t u a b = Some r /\ nearest t (a - b) r.
Proof.
  intros t u a b S S' A B. exists (Z.max 0 (a - b)). split; [now apply sub_ok|]. pose proof (clamp_nearest t (a - b)) as N. pose proof (fits_nonneg u b S' B). apply fits_bounds in A. rewrite Z.min_r in N by lia. unfold min_of in N. now rewrite S in N.
Qed.
(** SignedMin(), SignedMax(), UnsignedMin(), UnsignedMax() of arguments of different types *)
Theorem Min_Max : forall a b x y, fits a x -> fits b y ->
  (sg a = true -> sg b = true -> SignedMin a b x y = Z.min x y /\ SignedMax a b x y = Z.max x y) /\
  (sg a = false -> sg b = false -> UnsignedMin a b x y = Z.min x y /\ UnsignedMax a b x y = Z.max x y).
Proof.
  intros a b x y X Y. split; intros A B; [now apply minmax_signed|]. destruct (minmax_unsigned a b x y A B X Y) as (-> & -> & _). split; reflexivity.
Qed.
(** With any number of arguments, each of its own type, these are the least and the greatest.  (Unsigned types narrower than int cannot be given to UnsignedMax() with more than two arguments.) *)
Theorem Min_Max_of_many : forall a x l, fits a x ->
  (sg a = true -> Forall (fun p => sg (fst p) = true /\ fits (fst p) (snd p)) l -> least (SignedMinN a x l) (x :: map snd l) /\ greatest (SignedMaxN a x l) (x :: map snd l)) /\
  (sg a = false -> Forall (fun p => sg (fst p) = false /\ fits (fst p) (snd p)) l -> least (UnsignedMinN a x l) (x :: map snd l) /\
    (32 <= width a -> Forall (fun p => 32 <= width (fst p)) l -> greatest (UnsignedMaxN a x l) (x :: map snd l))).
Proof. intros a x l X. split; intros S F; (split; [|intros]); [now apply signedN|now apply signedXN|now apply unsignedN|now apply unsignedXN]. Qed.
(** PtrDistance(first, last) is the number of elements between; an assertion fails if the pointers are in the wrong order or only one is nullptr *)
Theorem PtrDistance_exact : forall size first last, 0 < size -> 0 <= first -> 0 <= last ->
  (forall n, 0 < first -> 0 <= n < 2 ^ 63 -> last = first + n * size -> PtrDistance size first last = Some n) /\
  (first = 0 -> last = 0 -> PtrDistance size first last = Some 0) /\
  (last < first \/ (first = 0 /\ last <> 0) -> PtrDistance size first last = None).
Proof.
  intros size first last S F L. split; [|split]; [intros n ? ? ?; now apply ptr_ok| |intros; now apply ptr_fails]. intros -> ->. unfold PtrDistance. rewrite Z.sub_diag, Z.div_0_l by lia. reflexivity.
Qed.
(** UnsignedClamp(value, min, max) is between min and max, nearest to value; if min > max then min wins *)
Theorem UnsignedClamp_nearest : forall v n m value min max, sg v = false -> sg n = false -> sg m = false -> fits v value -> fits n min -> fits m max ->
  let r := UnsignedClamp v n m value min max in
  (min <= max -> min <= r <= max /\ (forall x, min <= x <= max -> Z.abs (value - r) <= Z.abs (value - x))) /\ (max < min -> r = min).
Proof.
  intros v n m value min max V N M FV FN FM. cbv zeta. rewrite clamp_ok by assumption. split; [|lia]. intros L. split; [lia|]. intros x X. lia.
Qed.
(** RoundDown<alignment>(value) is the greatest multiple of the alignment which is not greater *)
Theorem RoundDown_greatest : forall t k v, sg t = false -> 0 <= k -> fits t (2 ^ k - 1) -> fits t v ->
  let r := RoundDown t (2 ^ k) v in (2 ^ k | r) /\ r <= v /\ (forall m, (2 ^ k | m) -> m <= v -> m <= r).
Proof. intros t k v S K F V. cbv zeta. rewrite round_down_ok by assumption. now apply down_spec. Qed.
(** RoundUp<alignment>(value) is the least multiple which is not less, or 0 if the type does not have it *)
Theorem RoundUp_least : forall t k v, sg t = false -> 0 <= k -> fits t (2 ^ k - 1) -> fits t v ->
  exists r, (2 ^ k | r) /\ v <= r /\ (forall m, (2 ^ k | m) -> v <= m -> r <= m) /\ (fits t r -> RoundUp t (2 ^ k) v = r) /\ (~ fits t r -> RoundUp t (2 ^ k) v = 0).
Proof.
  intros t k v S K F V. destruct (up_spec k v K) as (A & B & C). exists (2 ^ k * ((v - 1) / 2 ^ k) + 2 ^ k). split; [exact A|]. split; [exact B|]. split; [exact C|]. rewrite round_up_ok by assumption. cbv zeta. pose proof (fits_nonneg t v S V). unfold fits, max_of. rewrite S.
  destruct (Z.leb_spec (2 ^ k * ((v - 1) / 2 ^ k) + 2 ^ k) (2 ^ width t - 1)); split; intros; try reflexivity; exfalso; lia.
Qed.

Definition u8 := Ty false B8. Definition i8 := Ty true B8. Definition u32 := Ty false B32. Definition i64 := Ty true B64. Definition u64 := Ty false B64.
Example ex_cast : fits i64 (-1) /\ ~ fits u64 (-1) /\ IntCast u64 i64 (-1) = None /\ IntCast i8 u64 127 = Some 127 /\ IntCast i8 u64 128 = None /\ IntCast u8 i64 (-256) = None.
Proof. unfold fits; vm_compute; intuition congruence. Qed.
Example ex_neg : fits i8 (-128) /\ Arith_NegatingUnsignedCast i8 (-128) = Some 128 /\ Arith_NegatingUnsignedCast i64 (- 2 ^ 63) = Some (2 ^ 63).
Proof. unfold fits; vm_compute; intuition congruence. Qed.
Example ex_sat : SaturatingIntCast i8 u64 (2 ^ 63) = 127 /\ SaturatingIntCast u32 i64 (-5) = 0 /\ SaturatingIntCast i8 i64 (-1000) = -128 /\ SaturatingAdd u8 [200; 50; 10] = 255 /\ SaturatingAdd u8 [200; 50; 5] = 255 /\ SaturatingSub2 u8 u64 200 (2 ^ 40) = Some 0 /\ SaturatingSub2 u64 u8 (2 ^ 40) 1 = Some (2 ^ 40 - 1).
Proof. vm_compute. repeat split. Qed.
Example ex_sat_hyp : Forall (fits u8) [200; 50; 10]. Proof. repeat constructor; unfold fits; cbn; lia. Qed.
Example ex_clamp : UnsignedClamp u64 u8 u32 (2 ^ 40) 7 1000 = 1000 /\ UnsignedClamp u64 u8 u32 3 7 1000 = 7 /\ UnsignedClamp u64 u8 u32 3 7 2 = 7.
Proof. vm_compute. repeat split. Qed.
Example ex_round : fits u8 (2 ^ 4 - 1) /\ RoundDown u8 16 255 = 240 /\ RoundUp u8 16 241 = 0 /\ RoundUp u8 16 240 = 240 /\ RoundUp u8 16 225 = 240 /\ RoundUp u64 16 0 = 0 /\ RoundDown u64 8 (2 ^ 63 + 15) = 2 ^ 63 + 8.
Proof. unfold fits; vm_compute; intuition congruence. Qed.
Example ex_many : SignedMinN i8 5 [(i64, - 2 ^ 40); (i8, 7)] = - 2 ^ 40 /\ UnsignedMinN u64 (2 ^ 40) [(u8, 9); (u32, 256)] = 9 /\ UnsignedMaxN u32 1 [(u64, 2 ^ 40); (u32, 3)] = 2 ^ 40 /\ PtrDistance 8 4096 4136 = Some 5 /\ PtrDistance 8 4136 4096 = None.
Proof. vm_compute. repeat split. Qed.

Print Assumptions IntCast_exact.
Print Assumptions UnsignedCast_exact.
Print Assumptions SaturatingIntCast_nearest.
Print Assumptions SaturatingAdd_nearest.
Print Assumptions SaturatingSub_nearest.
Print Assumptions Min_Max.
Print Assumptions UnsignedClamp_nearest.
Print Assumptions RoundDown_greatest.
Print Assumptions RoundUp_least.
Print Assumptions Min_Max_of_many.
Print Assumptions PtrDistance_exact.
