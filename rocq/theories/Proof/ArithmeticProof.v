(** Arithmetic. *)
From Verif Require Import Base.Bytes Model.WriteInt Model.Arithmetic Spec.ArithmeticSpec.

Lemma cast_id t v : fits t v -> cast t v = v.
Proof.
  unfold fits, cast. destruct t as [s b]; destruct s; cbn [sg]; intros F; [|apply Z.mod_small; exact F].
  assert (2 ^ width (Ty true b) = 2 * 2 ^ (width (Ty true b) - 1)) as E by (destruct b; reflexivity). rewrite Z.mod_small; lia.
Qed.
Lemma max_fits t : fits t (max_of t) /\ fits t (min_of t) /\ 0 <= max_of t.
Proof. destruct t as [[] []]; unfold fits, max_of, min_of, width; cbn; lia. Qed.
Lemma fits_bounds t v : fits t v <-> min_of t <= v <= max_of t.
Proof. unfold fits, min_of, max_of. destruct t as [[] b]; cbn [sg]; lia. Qed.
Lemma max_common t u : max_of t <= max_of (common t u) /\ max_of u <= max_of (common t u) /\ min_of (common t u) <= 0.
Proof. destruct t as [[] []], u as [[] []]; vm_compute; repeat split; discriminate. Qed.
Lemma min_common t u : sg t = true -> sg u = true -> min_of (common t u) <= min_of t /\ min_of (common t u) <= min_of u.
Proof. destruct t as [[] []], u as [[] []]; intros; try discriminate; vm_compute; split; discriminate. Qed.
Lemma common_l t u v : fits t v -> 0 <= v \/ (sg t = true /\ sg u = true) -> cast (common t u) v = v.
Proof.
  intros F C. apply cast_id. apply fits_bounds in F. apply fits_bounds. pose proof (max_common t u). destruct C as [C|(A & B)]; [lia|]. pose proof (min_common t u A B). lia.
Qed.
Lemma common_r t u v : fits u v -> 0 <= v \/ (sg t = true /\ sg u = true) -> cast (common t u) v = v.
Proof.
  intros F C. apply cast_id. apply fits_bounds in F. apply fits_bounds. pose proof (max_common t u). destruct C as [C|(A & B)]; [lia|]. pose proof (min_common t u A B). lia.
Qed.
Lemma le_c_ok t a u b : fits t a -> fits u b -> (0 <= a /\ 0 <= b) \/ (sg t = true /\ sg u = true) -> le_c t a u b = (a <=? b).
Proof. intros A B C. unfold le_c. rewrite common_l, common_r; auto; intuition. Qed.
Lemma lt_c_ok t a u b : fits t a -> fits u b -> (0 <= a /\ 0 <= b) \/ (sg t = true /\ sg u = true) -> lt_c t a u b = (a <? b).
Proof. intros A B C. unfold lt_c. rewrite common_l, common_r; auto; intuition. Qed.
Lemma int0 : fits int 0. Proof. unfold fits; cbn; lia. Qed.
Lemma unsigned_fits t v : fits t v -> 0 <= v -> fits (unsigned t) v.
Proof. destruct t as [[] []]; unfold fits, unsigned, width; cbn; lia. Qed.
Lemma unsigned_max t : fits (unsigned t) (max_of t). Proof. destruct t as [[] []]; unfold fits, unsigned, max_of, width; cbn; lia. Qed.
Lemma fits_nonneg t v : sg t = false -> fits t v -> 0 <= v. Proof. unfold fits. intros ->. lia. Qed.
Lemma check_if {A} b (x : A) : check b (Some x) = if b then Some x else None. Proof. reflexivity. Qed.

Lemma cast_ok a b v : fits b v -> IntCast a b v = if (min_of a <=? v) && (v <=? max_of a) then Some v else None.
Proof.
  intros F. pose proof (max_fits a) as (M1 & M2 & M3).
  assert (G : forall x : bool, (x = true <-> fits a v) -> check x (Some (cast a v)) = if (min_of a <=? v) && (v <=? max_of a) then Some v else None).
  { intros x X. destruct (Z.leb_spec (min_of a) v), (Z.leb_spec v (max_of a)); cbn [andb]; (destruct x; [|try reflexivity; exfalso; assert (fits a v) by (apply fits_bounds; lia); intuition discriminate]); unfold check; try (rewrite cast_id by (apply X; reflexivity); reflexivity); exfalso; assert (fits a v) as Y by (apply X; reflexivity); apply fits_bounds in Y; lia. }
  unfold IntCast. destruct (sg a) eqn:A, (sg b) eqn:B.
  - rewrite !le_c_ok; auto. destruct (Z.leb_spec (min_of a) v) as [L|L]; cbn [check].
    + rewrite G; [|rewrite Z.leb_le, fits_bounds; lia]. destruct (Z.leb_spec (min_of a) v); [reflexivity|lia].
    + reflexivity.
  - pose proof (fits_nonneg b v B F). rewrite le_c_ok; auto using unsigned_max. apply G. rewrite Z.leb_le, fits_bounds. assert (min_of a <= 0) by (unfold min_of; rewrite A; lia). lia.
  - assert (min_of a = 0) as MA by (unfold min_of; now rewrite A). rewrite (le_c_ok int 0 b v int0 F) by (right; split; [reflexivity|exact B]). destruct (Z.leb_spec 0 v) as [L|L].
    + rewrite check_if. rewrite (cast_id (unsigned b) v) by (now apply unsigned_fits). rewrite le_c_ok; auto using unsigned_fits. rewrite <- (G (v <=? max_of a)); [reflexivity|]. rewrite Z.leb_le, fits_bounds. lia.
    + cbn [check]. destruct (Z.leb_spec (min_of a) v); [lia|reflexivity].
  - pose proof (fits_nonneg b v B F). rewrite le_c_ok; auto. apply G. rewrite Z.leb_le, fits_bounds. assert (min_of a = 0) by (unfold min_of; now rewrite A). lia.
Qed.
Lemma sat_cast_ok a b v : fits b v -> SaturatingIntCast a b v = Z.max (min_of a) (Z.min (max_of a) v).
Proof.
  intros F. pose proof (max_fits a) as (M1 & M2 & M3). assert (G : min_of a <= v -> v <= max_of a -> cast a v = v) by (intros; apply cast_id, fits_bounds; lia). assert (MM : min_of a <= 0) by (unfold min_of; destruct (sg a); lia).
  unfold SaturatingIntCast. destruct (sg a) eqn:A, (sg b) eqn:B.
  - rewrite !lt_c_ok; auto. destruct (Z.ltb_spec v (min_of a)); [lia|]. destruct (Z.ltb_spec (max_of a) v); [lia|]. rewrite G by lia. lia.
  - pose proof (fits_nonneg b v B F). rewrite lt_c_ok; auto using unsigned_max. destruct (Z.ltb_spec (max_of a) v); [lia|]. rewrite G by lia. lia.
  - assert (min_of a = 0) as MA by (unfold min_of; now rewrite A). rewrite (lt_c_ok b v int 0 F int0) by (right; split; [exact B|reflexivity]). destruct (Z.ltb_spec v 0); [lia|]. rewrite (cast_id (unsigned b) v) by (now apply unsigned_fits). rewrite lt_c_ok; auto using unsigned_fits. destruct (Z.ltb_spec (max_of a) v); [lia|]. rewrite G by lia. lia.
  - assert (min_of a = 0) as MA by (unfold min_of; now rewrite A). pose proof (fits_nonneg b v B F). rewrite lt_c_ok; auto. destruct (Z.ltb_spec (max_of a) v); [lia|]. rewrite G by lia. lia.
Qed.
Lemma clamp_nearest t v : nearest t v (Z.max (min_of t) (Z.min (max_of t) v)).
Proof.
  pose proof (max_fits t) as (M1 & M2 & M3). apply fits_bounds in M1, M2. split; [apply fits_bounds; lia|]. intros x X. apply fits_bounds in X. lia.
Qed.
Lemma neg_cast_ok t v : sg t = true -> fits t v -> Arith_NegatingUnsignedCast t v = if v <=? 0 then Some (- v) else None.
Proof.
  intros S F. unfold Arith_NegatingUnsignedCast. rewrite le_c_ok; auto using int0. destruct (Z.leb_spec v 0) as [L|L]; [|reflexivity]. cbn [check]. f_equal.
  destruct t as [[] b]; [|discriminate]. unfold fits, width in F. cbn [sg bt] in F. clear S.
  destruct b; cbn [num] in F; unfold cast, unsigned, common, promote, width, int; cbn -[Z.pow Z.modulo Z.mul Z.add Z.sub]; cbn [Z.pow] in *; Z.div_mod_to_equations; lia.
Qed.
Lemma promote_fits t v : fits t v -> fits (promote t) v.
Proof. intros F. apply fits_bounds in F. apply fits_bounds. destruct t as [[] []]; cbn in *; lia. Qed.
Lemma promote_max t : max_of t <= max_of (promote t) /\ min_of (promote t) <= 0. Proof. destruct t as [[] []]; vm_compute; split; discriminate. Qed.
Lemma add2_ok t a b : sg t = false -> fits t a -> fits t b -> SaturatingAdd2 t a b = Z.min (max_of t) (a + b).
Proof.
  intros S A B. pose proof (fits_nonneg t a S A). pose proof (fits_nonneg t b S B). pose proof (promote_max t) as (P1 & P2). apply fits_bounds in A, B. unfold SaturatingAdd2.
  rewrite (cast_id (promote t) (max_of t - a)) by (apply fits_bounds; lia). rewrite lt_c_ok; [|apply fits_bounds; lia|apply fits_bounds; lia|left; lia]. destruct (Z.ltb_spec (max_of t - a) b); [lia|]. rewrite (cast_id (promote t)) by (apply fits_bounds; lia). rewrite cast_id by (apply fits_bounds; lia). lia.
Qed.
Lemma add_ok t l : sg t = false -> Forall (fits t) l -> SaturatingAdd t l = Z.min (max_of t) (fold_left Z.add l 0).
Proof.
  intros S F. pose proof (max_fits t) as (M1 & _ & M3). destruct l as [|a l]; cbn [SaturatingAdd fold_left]; [lia|]. inversion F as [|? ? A FL]; subst.
  assert (G : forall l x y, Forall (fits t) l -> fits t x -> x = Z.min (max_of t) y -> fold_left (SaturatingAdd2 t) l x = Z.min (max_of t) (fold_left Z.add l y)).
  { clear F FL a A l. induction l as [|b l IH]; intros x y FL X E; cbn [fold_left]; [exact E|]. inversion FL as [|? ? B FL']; clear FL; subst x; rewrite add2_ok by assumption. pose proof (fits_nonneg t b S B). apply IH; [exact FL'| |lia]. apply fits_bounds in X, B. apply fits_bounds. lia. }
  apply G; [exact FL|exact A|]. apply fits_bounds in A. lia.
Qed.
Lemma sub_ok t u a b : sg t = false -> sg u = false -> fits t a -> fits u b -> SaturatingSub2 t u a b = Some (Z.max 0 (a - b)).
Proof.
  intros S S' A B. pose proof (fits_nonneg t a S A). pose proof (fits_nonneg u b S' B). pose proof (promote_max t) as (P1 & P2). unfold SaturatingSub2. rewrite lt_c_ok by auto. destruct (Z.ltb_spec a b); [f_equal; lia|]. rewrite (cast_ok t u b B). assert (min_of t = 0) as MT by (unfold min_of; now rewrite S). apply fits_bounds in A.
  replace (min_of t <=? b) with true by (symmetry; apply Z.leb_le; lia). replace (b <=? max_of t) with true by (symmetry; apply Z.leb_le; lia). cbn [andb]. rewrite (cast_id (promote t)) by (apply fits_bounds; lia). rewrite cast_id by (apply fits_bounds; lia). f_equal. lia.
Qed.
Lemma minmax_signed a b x y : sg a = true -> sg b = true -> fits a x -> fits b y -> SignedMin a b x y = Z.min x y /\ SignedMax a b x y = Z.max x y.
Proof.
  intros A B X Y. unfold SignedMin, SignedMax. rewrite !le_c_ok by auto. split; [destruct (Z.leb_spec x y)|destruct (Z.leb_spec y x)]; first [rewrite common_l by auto; lia|rewrite common_r by auto; lia].
Qed.
Lemma narrower_max a b : sg a = false -> sg b = false -> max_of (narrower a b) = Z.min (max_of a) (max_of b) /\ sg (narrower a b) = false. Proof. destruct a as [[] []], b as [[] []]; intros; try discriminate; vm_compute; split; reflexivity. Qed.
Lemma minmax_unsigned a b x y : sg a = false -> sg b = false -> fits a x -> fits b y -> UnsignedMin a b x y = Z.min x y /\ UnsignedMax a b x y = Z.max x y /\ fits (narrower a b) (Z.min x y).
Proof.
  intros A B X Y. pose proof (fits_nonneg a x A X). pose proof (fits_nonneg b y B Y). unfold UnsignedMin, UnsignedMax. rewrite !le_c_ok by auto. pose proof (narrower_max a b A B) as (N & NS). apply fits_bounds in X as X', Y as Y'.
  assert (NF : fits (narrower a b) (Z.min x y)). { apply fits_bounds. unfold min_of. rewrite NS, N. unfold min_of in *. lia. }
  split; [|split; [|exact NF]].
  - destruct (Z.leb_spec x y); [rewrite common_l by auto; rewrite cast_id; [lia|now replace x with (Z.min x y) by lia]|rewrite common_r by auto; rewrite cast_id; [lia|now replace y with (Z.min x y) by lia]].
  - destruct (Z.leb_spec y x); first [rewrite common_l by auto; lia|rewrite common_r by auto; lia].
Qed.

Lemma clamp_ok v n m value min max : sg v = false -> sg n = false -> sg m = false -> fits v value -> fits n min -> fits m max -> UnsignedClamp v n m value min max = Z.max min (Z.min value max).
Proof.
  intros V N M FV FN FM. unfold UnsignedClamp. destruct (minmax_unsigned v m value max V M FV FM) as (-> & _ & F). destruct (narrower_max v m V M) as (_ & S). destruct (minmax_unsigned (narrower v m) n _ _ S N F FN) as (_ & -> & _). lia.
Qed.
Lemma lor_ones x k : 0 <= k -> Z.lor x (2 ^ k - 1) = 2 ^ k * (x / 2 ^ k) + 2 ^ k - 1.
Proof.
  intros K. replace (2 ^ k - 1) with (Z.ones k) by (rewrite Z.ones_equiv; lia).
  assert (Z.lor x (Z.ones k) = Z.ldiff x (Z.ones k) + Z.ones k) as ->.
  { rewrite Z.add_nocarry_lxor, Z.lxor_lor by (apply Z.bits_inj'; intros n H; rewrite Z.land_spec, Z.ldiff_spec, Z.bits_0; destruct (Z.testbit (Z.ones k) n), (Z.testbit x n); reflexivity).
    apply Z.bits_inj'; intros n H. rewrite !Z.lor_spec, Z.ldiff_spec. destruct (Z.testbit (Z.ones k) n), (Z.testbit x n); reflexivity. }
  rewrite Z.ldiff_ones_r by exact K. rewrite Z.shiftl_mul_pow2, Z.shiftr_div_pow2 by exact K. rewrite Z.ones_equiv. lia.
Qed.
Lemma land_lnot x k : 0 <= k -> Z.land x (Z.lnot (2 ^ k - 1)) = 2 ^ k * (x / 2 ^ k).
Proof.
  intros K. replace (2 ^ k - 1) with (Z.ones k) by (rewrite Z.ones_equiv; lia).
  change (Z.land x (Z.lnot (Z.ones k))) with (Z.land x (Z.lnot (Z.ones k))). rewrite <- Z.ldiff_land. rewrite Z.ldiff_ones_r by exact K. rewrite Z.shiftl_mul_pow2, Z.shiftr_div_pow2 by exact K. lia.
Qed.
Lemma round_down_ok t k v : sg t = false -> 0 <= k -> fits t (2 ^ k - 1) -> fits t v -> RoundDown t (2 ^ k) v = 2 ^ k * (v / 2 ^ k).
Proof.
  intros S K FK FV. pose proof (fits_nonneg t v S FV) as V0. assert (P : 0 < 2 ^ k) by (apply Z.pow_pos_nonneg; lia).
  assert (R : 0 <= 2 ^ k * (v / 2 ^ k) <= v). { pose proof (Z.mul_div_le v (2 ^ k) P). pose proof (Z.div_pos v (2 ^ k) V0 P). clear - P H H0; nia. }
  unfold RoundDown. cbv zeta. assert (E : Z.land v (cast (promote t) (Z.lnot (2 ^ k - 1))) = 2 ^ k * (v / 2 ^ k)).
  { rewrite <- land_lnot by exact K. unfold promote. destruct (width t <? 32) eqn:W.
    - f_equal. apply cast_id. apply Z.ltb_lt in W. unfold fits in *. rewrite S in FK. cbn [sg int]. unfold Z.lnot. assert (2 ^ width t <= 2 ^ 31) by (apply Z.pow_le_mono_r; lia). change (2 ^ (width int - 1)) with (2 ^ 31). lia.
    - unfold cast. rewrite S. unfold fits in FV. rewrite S in FV. assert (0 <= width t) by (destruct t as [? []]; cbn; lia). rewrite <- Z.land_ones by assumption. rewrite (Z.land_comm _ (Z.ones _)), Z.land_assoc. f_equal. rewrite Z.land_ones by assumption. now apply Z.mod_small. }
  rewrite E. apply cast_id. unfold fits in *. rewrite S in *. lia.
Qed.
Lemma round_up_ok t k v : sg t = false -> 0 <= k -> fits t (2 ^ k - 1) -> fits t v -> RoundUp t (2 ^ k) v = let r := 2 ^ k * ((v - 1) / 2 ^ k) + 2 ^ k in if r <=? max_of t then r else 0.
Proof.
  intros S K FK FV. pose proof (fits_nonneg t v S FV) as V0. assert (P : 0 < 2 ^ k) by (apply Z.pow_pos_nonneg; lia).
  assert (M : max_of t = 2 ^ width t - 1) by (unfold max_of; now rewrite S). cbv zeta. rewrite M.
  assert (W0 : 0 <= width t) by (destruct t as [? []]; cbn; lia).
  unfold fits in FK, FV. rewrite S in FK, FV.
  assert (KW : k <= width t). { destruct (Z.le_gt_cases k (width t)); [assumption|]. assert (2 ^ (width t + 1) <= 2 ^ k) by (apply Z.pow_le_mono_r; lia). rewrite Z.pow_add_r in * by lia. lia. }
  assert (D : 2 ^ width t = 2 ^ k * 2 ^ (width t - k)) by (rewrite <- Z.pow_add_r by lia; f_equal; lia).
  assert (UB : 2 ^ k * ((v - 1) / 2 ^ k) + 2 ^ k <= 2 ^ width t).
  { assert ((v - 1) / 2 ^ k < 2 ^ (width t - k)) by (apply Z.div_lt_upper_bound; lia). rewrite D. nia. }
  assert (LB : 0 <= 2 ^ k * ((v - 1) / 2 ^ k) + 2 ^ k). { assert (-1 <= (v - 1) / 2 ^ k) as X by (apply Z.div_le_lower_bound; lia). clear - P X; nia. }
  assert (FIN : forall z, z = 2 ^ k * ((v - 1) / 2 ^ k) + 2 ^ k -> cast t z = if 2 ^ k * ((v - 1) / 2 ^ k) + 2 ^ k <=? 2 ^ width t - 1 then 2 ^ k * ((v - 1) / 2 ^ k) + 2 ^ k else 0).
  { intros z ->. unfold cast. rewrite S. destruct (Z.leb_spec (2 ^ k * ((v - 1) / 2 ^ k) + 2 ^ k) (2 ^ width t - 1)); [apply Z.mod_small; lia|]. replace (2 ^ k * ((v - 1) / 2 ^ k) + 2 ^ k) with (2 ^ width t) by lia. apply Z.mod_same. lia. }
  unfold RoundUp. cbv zeta. unfold promote. destruct (width t <? 32) eqn:W.
  - apply Z.ltb_lt in W. assert (2 ^ width t <= 2 ^ 31 - 1). { assert (width t <= 30) by (destruct t as [? []]; cbn in *; lia). assert (2 ^ width t <= 2 ^ 30) by (apply Z.pow_le_mono_r; lia). lia. }
    assert (CI : forall z, - 2 ^ 31 <= z < 2 ^ 31 -> cast int z = z) by (intros z Hz; apply cast_id; exact Hz).
    rewrite (CI (v - 1)) by lia. rewrite lor_ones by exact K. rewrite CI by lia. apply FIN. lia.
  - assert (CC : forall z, cast t (cast t z) = cast t z) by (intros z; unfold cast; rewrite S; apply Z.mod_mod; lia). rewrite CC. rewrite lor_ones by exact K.
    destruct (Z.eq_dec v 0) as [->|NV].
    + assert (cast t (0 - 1) = 2 ^ width t - 1) as ->. { unfold cast. rewrite S. symmetry. apply (Z.mod_unique _ _ (-1)); lia. }
      assert ((2 ^ width t - 1) / 2 ^ k = 2 ^ (width t - k) - 1) as ->. { symmetry. apply (Z.div_unique _ _ _ (2 ^ k - 1)); lia. }
      assert ((0 - 1) / 2 ^ k = -1) as -> by (symmetry; apply (Z.div_unique _ _ _ (2 ^ k - 1)); lia).
      replace (2 ^ k * (2 ^ (width t - k) - 1) + 2 ^ k - 1 + 1) with (2 ^ width t) by lia. unfold cast. rewrite S, Z.mod_same by lia. destruct (Z.leb_spec (2 ^ k * -1 + 2 ^ k) (2 ^ width t - 1)); lia.
    + assert (cast t (v - 1) = v - 1) as -> by (apply cast_id; unfold fits; rewrite S; lia). apply FIN. lia.
Qed.
Lemma down_spec k v : 0 <= k -> (2 ^ k | 2 ^ k * (v / 2 ^ k)) /\ 2 ^ k * (v / 2 ^ k) <= v /\ (forall m, (2 ^ k | m) -> m <= v -> m <= 2 ^ k * (v / 2 ^ k)).
Proof.
  intros K. assert (P : 0 < 2 ^ k) by (apply Z.pow_pos_nonneg; lia). split; [apply Z.divide_factor_l|]. split; [apply Z.mul_div_le; lia|]. intros m (q & ->) L. assert (q <= v / 2 ^ k) by (apply Z.div_le_lower_bound; lia). nia.
Qed.
Lemma up_spec k v : 0 <= k -> (2 ^ k | 2 ^ k * ((v - 1) / 2 ^ k) + 2 ^ k) /\ v <= 2 ^ k * ((v - 1) / 2 ^ k) + 2 ^ k /\ (forall m, (2 ^ k | m) -> v <= m -> 2 ^ k * ((v - 1) / 2 ^ k) + 2 ^ k <= m).
Proof.
  intros K. assert (P : 0 < 2 ^ k) by (apply Z.pow_pos_nonneg; lia). split; [exists ((v - 1) / 2 ^ k + 1); lia|]. split; [pose proof (Z.mul_succ_div_gt (v - 1) (2 ^ k) P); lia|]. intros m (q & ->) L. assert ((v - 1) / 2 ^ k < q) by (apply Z.div_lt_upper_bound; lia). nia.
Qed.

Lemma common_signed a b : sg a = true -> sg b = true -> sg (common a b) = true. Proof. destruct a as [[] []], b as [[] []]; intros; try discriminate; reflexivity. Qed.
Lemma common_unsigned a b : sg a = false -> sg b = false -> 32 <= width a -> 32 <= width b -> sg (common a b) = false /\ 32 <= width (common a b).
Proof. destruct a as [[] []], b as [[] []]; cbn; intros; try discriminate; try lia; split; reflexivity || lia. Qed.
Lemma least_step x y r l : least r (Z.min x y :: l) -> least r (x :: y :: l).
Proof.
  intros (I & F). inversion F as [|? ? A B]; subst. split; [|repeat constructor; [lia|lia|exact B]]. destruct I as [E|I]; [|now right; right]. destruct (Z.min_spec x y) as [(? & M)|(? & M)]; rewrite M in E; [now left|now right; left].
Qed.
Lemma greatest_step x y r l : greatest r (Z.max x y :: l) -> greatest r (x :: y :: l).
Proof.
  intros (I & F). inversion F as [|? ? A B]; subst. split; [|repeat constructor; [lia|lia|exact B]]. destruct I as [E|I]; [|now right; right]. destruct (Z.max_spec x y) as [(? & M)|(? & M)]; rewrite M in E; [now right; left|now left].
Qed.
Lemma one_least x : least x [x] /\ greatest x [x]. Proof. split; (split; [now left|repeat constructor; lia]). Qed.
Definition signed_arg (p : ty * Z) : Prop := sg (fst p) = true /\ fits (fst p) (snd p).
Definition unsigned_arg (p : ty * Z) : Prop := sg (fst p) = false /\ fits (fst p) (snd p).
Lemma signedN l : forall a x, sg a = true -> fits a x -> Forall signed_arg l -> least (SignedMinN a x l) (x :: map snd l).
Proof.
  induction l as [|(b & y) l IH]; intros a x S X F; [apply one_least|]. inversion F as [|? ? (SB & Y) F']; subst; clear F. cbn [fst snd] in *. cbn [SignedMinN map snd]. destruct (minmax_signed a b x y S SB X Y) as (-> & _). apply least_step. apply IH; [now apply common_signed| |exact F'].
  apply fits_bounds in X, Y. apply fits_bounds. pose proof (max_common a b). pose proof (min_common a b S SB). lia.
Qed.
Lemma signedXN l : forall a x, sg a = true -> fits a x -> Forall signed_arg l -> greatest (SignedMaxN a x l) (x :: map snd l).
Proof.
  induction l as [|(b & y) l IH]; intros a x S X F; [apply one_least|]. inversion F as [|? ? (SB & Y) F']; subst; clear F. cbn [fst snd] in *. cbn [SignedMaxN map snd]. destruct (minmax_signed a b x y S SB X Y) as (_ & ->). apply greatest_step. apply IH; [now apply common_signed| |exact F'].
  apply fits_bounds in X, Y. apply fits_bounds. pose proof (max_common a b). pose proof (min_common a b S SB). lia.
Qed.
Lemma unsignedN l : forall a x, sg a = false -> fits a x -> Forall unsigned_arg l -> least (UnsignedMinN a x l) (x :: map snd l).
Proof.
  induction l as [|(b & y) l IH]; intros a x S X F; [apply one_least|]. inversion F as [|? ? (SB & Y) F']; subst; clear F. cbn [fst snd] in *. cbn [UnsignedMinN map snd]. destruct (minmax_unsigned a b x y S SB X Y) as (-> & _ & N). apply least_step. apply IH; [now apply narrower_max|exact N|exact F'].
Qed.
Lemma unsignedXN l : forall a x, sg a = false -> 32 <= width a -> fits a x -> Forall unsigned_arg l -> Forall (fun p => 32 <= width (fst p)) l -> greatest (UnsignedMaxN a x l) (x :: map snd l).
Proof.
  induction l as [|(b & y) l IH]; intros a x S W X F G; [apply one_least|]. inversion F as [|? ? (SB & Y) F']; subst; clear F. inversion G as [|? ? WB G']; subst; clear G. cbn [fst snd] in *. cbn [UnsignedMaxN map snd]. destruct (minmax_unsigned a b x y S SB X Y) as (_ & -> & _). apply greatest_step. destruct (common_unsigned a b S SB W WB) as (SC & WC). apply IH; [exact SC|exact WC| |exact F'|exact G'].
  pose proof (fits_nonneg a x S X). apply fits_bounds in X, Y. apply fits_bounds. pose proof (max_common a b). lia.
Qed.
Lemma ptr_ok size first last n : 0 < size -> 0 < first -> 0 <= n < 2 ^ 63 -> last = first + n * size -> PtrDistance size first last = Some n.
Proof.
  intros S F N ->. unfold PtrDistance. assert (0 <= n * size) by (apply Z.mul_nonneg_nonneg; lia). replace (first =? 0) with false by (symmetry; apply Z.eqb_neq; lia). replace (first + n * size =? 0) with false by (symmetry; apply Z.eqb_neq; lia). cbn [Bool.eqb check]. replace (first <=? first + n * size) with true by (symmetry; apply Z.leb_le; lia). cbn [check].
  replace ((first + n * size - first) / size) with n by (symmetry; replace (first + n * size - first) with (n * size) by lia; apply Z.div_mul; lia).
  rewrite cast_ok by (unfold fits; cbn [sg]; change (2 ^ (width (Ty true B64) - 1)) with (2 ^ 63); lia). change (min_of (Ty false B64)) with 0. change (max_of (Ty false B64)) with (2 ^ 64 - 1). destruct (Z.leb_spec 0 n), (Z.leb_spec n (2 ^ 64 - 1)); cbn [andb]; try reflexivity; exfalso; lia.
Qed.
Lemma ptr_fails size first last : 0 <= first -> 0 <= last -> last < first \/ (first = 0 /\ last <> 0) -> PtrDistance size first last = None.
Proof.
  intros F L H. unfold PtrDistance. destruct (Z.eqb_spec first 0), (Z.eqb_spec last 0); cbn [Bool.eqb check]; try reflexivity; replace (first <=? last) with false by (symmetry; apply Z.leb_gt; lia); reflexivity.
Qed.
