(** Hexadecimal. *)
From Verif Require Import Base.Bytes Model.WriteInt Spec.WriteIntSpec Proof.WriteIntProof.
Ltac dm := Z.to_euclidean_division_equations; lia.

Lemma lor1 a : 0 <= a -> Z.lor a 1 = 2 * (a / 2) + 1.
Proof.
  intros A. apply Z.bits_inj'. intros n N. rewrite Z.lor_spec. destruct (Z.eq_dec n 0) as [->|K]; [rewrite Z.testbit_odd_0; apply orb_true_r|].
  assert (X : forall q, Z.testbit (2 * q + 1) n = Z.testbit q (n - 1)) by (intros q; replace n with (Z.succ (n - 1)) at 1 by lia; apply Z.testbit_odd_succ; lia).
  rewrite (X (a / 2)). pose proof (X 0) as Y. change (2 * 0 + 1) with 1 in Y. rewrite Y, Z.bits_0, orb_false_r. change (a / 2) with (a / 2 ^ 1). rewrite Z.div_pow2_bits by lia. f_equal. lia.
Qed.
Lemma bit_width_hex n : 0 <= n -> let k := (bit_width (Z.lor n 1) + 3) / 4 in 1 <= k /\ n < 16 ^ k /\ (1 < k -> 16 ^ (k - 1) <= n).
Proof.
  intros N. rewrite lor1 by lia. set (m := 2 * (n / 2) + 1). assert (M : 0 < m /\ n <= m <= n + 1) by (subst m; dm). unfold bit_width. destruct (Z.eqb_spec m 0); [lia|]. pose proof (Z.log2_spec m ltac:(lia)) as LS. pose proof (Z.log2_nonneg m). set (l := Z.log2 m) in *. unfold Z.succ in LS. cbv zeta.
  set (k := (l + 1 + 3) / 4). assert (K : 1 <= k /\ 4 * k - 4 <= l < 4 * k) by (subst k; dm). split; [lia|]. change 16 with (2 ^ 4). rewrite <- !Z.pow_mul_r by lia.
  assert (2 ^ (l + 1) <= 2 ^ (4 * k)) by (apply Z.pow_le_mono_r; lia). split; [lia|]. intros K1. assert (2 ^ (4 * (k - 1)) <= 2 ^ l) by (apply Z.pow_le_mono_r; lia).
  assert (E : 2 ^ (4 * (k - 1)) = 2 * 2 ^ (4 * (k - 1) - 1)) by (rewrite <- Z.pow_succ_r by lia; f_equal; lia). subst m. lia.
Qed.

Section Hex.
Context (ssse3 up : bool).
Notation f := (fixed 16 up).
Notation hex := (good 16 up).
Lemma sixteen : 2 <= 16 <= 16. Proof. lia. Qed.
Notation dig := (digit_char up).
Lemma char16 d : 0 <= d < 16 -> nth (Z.to_nat d) (HexDigits up) 0 = dig d.
Proof.
  intros D. assert (E : d = 0 \/ d = 1 \/ d = 2 \/ d = 3 \/ d = 4 \/ d = 5 \/ d = 6 \/ d = 7 \/ d = 8 \/ d = 9 \/ d = 10 \/ d = 11 \/ d = 12 \/ d = 13 \/ d = 14 \/ d = 15) by lia.
  repeat (destruct E as [->|E]; [destruct up; reflexivity|]). subst d. destruct up; reflexivity.
Qed.
Lemma land15 b : Z.land b 15 = b mod 16. Proof. change 15 with (Z.ones 4). rewrite Z.land_ones by lia. reflexivity. Qed.
Lemma nibbles l : bytes l -> map (fun b => b mod 16) (le_bytes (length l) (le_val l / 16)) = map (fun b => b / 16) l.
Proof.
  induction 1 as [|b l Hb _ IH]; [reflexivity|]. unfold is_byte in Hb. cbn [length le_val le_bytes map]. f_equal; [dm|]. rewrite <- IH. do 2 f_equal. dm.
Qed.
Lemma interleave (x y : list Z) : length x = length y -> map (fun b => b mod 16) (flat_map (fun p => [fst p; snd p]) (combine x y)) = flat_map (fun p => [fst p; snd p mod 16]) (combine (map (fun b => b mod 16) x) y).
Proof. revert y. induction x as [|a x IH]; intros [|b y] L; try discriminate; [reflexivity|]. cbn [combine flat_map map app fst snd] in *. rewrite IH by (cbn in L; lia). reflexivity. Qed.
Lemma pairs n : forall v, 0 <= v -> flat_map (fun b => [dig (b / 16); dig (b mod 16)]) (be_bytes n v) = f (n + n) v.
Proof.
  induction n as [|n IH]; intros v V; [reflexivity|]. unfold be_bytes in *. cbn [le_bytes rev]. rewrite flat_map_app, IH by dm. replace (S n + S n)%nat with (S (S (n + n))) by lia. cbn [fixed flat_map]. rewrite <- app_assoc. cbn [app]. replace (v / 16 / 16) with (v / 256) by dm. f_equal.
  f_equal; [f_equal; dm|]. f_equal. f_equal. dm.
Qed.
Lemma register n v : 0 <= v -> WriteHexRegister up n v = f (n + n) v.
Proof.
  intros V. rewrite <- pairs by exact V. unfold WriteHexRegister. rewrite Z.shiftr_div_pow2 by lia. change (2 ^ 4) with 16. pose proof (be_bytes_bytes n v) as BY. assert (LE : length (be_bytes n v) = n) by (unfold be_bytes; now rewrite rev_length, le_bytes_length).
  rewrite (map_ext (fun b => nth (Z.to_nat (Z.land b 15)) (HexDigits up) 0) (fun b => dig (b mod 16))) by (intros b; rewrite land15; apply char16, Z.mod_pos_bound; lia).
  rewrite <- (map_map (fun b => b mod 16) dig). rewrite interleave by (rewrite le_bytes_length; now symmetry). rewrite <- LE at 1. rewrite (nibbles _ BY). clear. induction (be_bytes n v) as [|b l IH]; [reflexivity|]. cbn [map combine flat_map app fst snd]. now rewrite <- IH.
Qed.
(** Without SSSE3 *)
Lemma all_2 u : forallb (fun n => list_eqb (WriteHex2Impl false u (Z.of_nat n)) (fixed 16 u 2 (Z.of_nat n))) (seq 0 (2 ^ 8)) = true. Proof. destruct u; vm_compute; reflexivity. Qed.
(** Bitwise operations on the parts of a number *)
Lemma parts k x r : 0 <= k -> 0 <= r < 2 ^ k -> Z.shiftr (2 ^ k * x + r) k = x /\ Z.land (2 ^ k * x + r) (Z.ones k) = r.
Proof.
  intros K R. rewrite Z.shiftr_div_pow2, Z.land_ones by lia. split; [symmetry; apply (Z.div_unique _ _ _ r); lia|symmetry; apply (Z.mod_unique _ _ x); lia].
Qed.
Lemma rejoin k z : 0 <= k -> z = 2 ^ k * Z.shiftr z k + Z.land z (Z.ones k).
Proof. intros K. rewrite Z.shiftr_div_pow2, Z.land_ones by lia. apply Z.div_mod. apply Z.pow_nonzero; lia. Qed.
Lemma land_parts k x r y s : 0 <= k -> 0 <= r < 2 ^ k -> 0 <= s < 2 ^ k -> Z.land (2 ^ k * x + r) (2 ^ k * y + s) = 2 ^ k * Z.land x y + Z.land r s.
Proof.
  intros K R S. destruct (parts k x r K R) as (A & B), (parts k y s K S) as (C & D). rewrite (rejoin k (Z.land _ _) K). rewrite Z.shiftr_land, A, C. f_equal.
  rewrite <- B at 2. rewrite <- D at 2. apply Z.bits_inj'. intros n _. rewrite !Z.land_spec. destruct (Z.testbit (Z.ones k) n), (Z.testbit (2 ^ k * x + r) n), (Z.testbit (2 ^ k * y + s) n); reflexivity.
Qed.
Lemma lor_parts k x r y s : 0 <= k -> 0 <= r < 2 ^ k -> 0 <= s < 2 ^ k -> Z.lor (2 ^ k * x + r) (2 ^ k * y + s) = 2 ^ k * Z.lor x y + Z.lor r s.
Proof.
  intros K R S. destruct (parts k x r K R) as (A & B), (parts k y s K S) as (C & D). rewrite (rejoin k (Z.lor _ _) K). rewrite Z.shiftr_lor, A, C. f_equal.
  rewrite <- B at 2. rewrite <- D at 2. apply Z.bits_inj'. intros n _. rewrite !Z.land_spec, !Z.lor_spec, !Z.land_spec. destruct (Z.testbit (Z.ones k) n), (Z.testbit (2 ^ k * x + r) n), (Z.testbit (2 ^ k * y + s) n); reflexivity.
Qed.
Notation n4 a b := (2 ^ 4 * a + b).
Notation n8 a b := (2 ^ 8 * a + b).
Lemma spread a b c d : 0 <= a < 16 -> 0 <= b < 16 -> 0 <= c < 16 -> 0 <= d < 16 ->
  Z.land (Z.lor (n4 (n4 (n4 a b) c) d) (Z.shiftl (n4 (n4 (n4 a b) c) d) 12)) 252645135 = n8 (n8 (n8 a c) b) d.
Proof.
  intros A B C D. rewrite Z.shiftl_mul_pow2 by lia. change 252645135 with (n4 (n4 (n4 (n4 (n4 (n4 15 0) 15) 0) 15) 0) 15).
  replace (n4 (n4 (n4 a b) c) d * 2 ^ 12) with (n4 (n4 (n4 (n4 (n4 (n4 a b) c) d) 0) 0) 0) by lia.
  replace (Z.lor (n4 (n4 (n4 a b) c) d)) with (Z.lor (n4 (n4 (n4 (n4 0 a) b) c) d)) by (f_equal; lia).
  rewrite !lor_parts by lia. rewrite !Z.lor_0_r, !Z.lor_0_l.
  assert (0 <= Z.lor a d < 2 ^ 4). { assert (0 <= Z.lor a d) by (apply Z.lor_nonneg; lia). split; [lia|]. destruct (Z.eq_dec (Z.lor a d) 0) as [->|]; [lia|]. apply Z.log2_lt_pow2; [lia|]. rewrite Z.log2_lor by lia. apply Z.max_lub_lt; [destruct (Z.eq_dec a 0) as [->|]; [cbn; lia|apply Z.log2_lt_pow2; lia]|destruct (Z.eq_dec d 0) as [->|]; [cbn; lia|apply Z.log2_lt_pow2; lia]]. }
  rewrite !land_parts by lia. rewrite !Z.land_0_r, !land15. rewrite !Z.mod_small by lia. lia.
Qed.
Lemma carry d : 0 <= d < 16 -> Z.land (d + 6) 16 = 16 * (if d <? 10 then 0 else 1).
Proof.
  intros D. assert (E : d = 0 \/ d = 1 \/ d = 2 \/ d = 3 \/ d = 4 \/ d = 5 \/ d = 6 \/ d = 7 \/ d = 8 \/ d = 9 \/ d = 10 \/ d = 11 \/ d = 12 \/ d = 13 \/ d = 14 \/ d = 15) by lia.
  repeat (destruct E as [->|E]; [reflexivity|]). subst d. reflexivity.
Qed.
Lemma land255 z : 0 <= z < 256 -> Z.land z 255 = z. Proof. intros Hz. change 255 with (Z.ones 8). rewrite Z.land_ones by lia. apply Z.mod_small. exact Hz. Qed.
Lemma all_4 n : 0 <= n < 65536 -> WriteHex4Impl false up n = f 4 n.
Proof.
  intros N. set (d := n mod 16). set (c := n / 16 mod 16). set (b := n / 256 mod 16). set (a := n / 4096).
  assert (A : 0 <= a < 16) by (subst a; dm). assert (B : 0 <= b < 16) by (subst b; dm). assert (C : 0 <= c < 16) by (subst c; dm). assert (D : 0 <= d < 16) by (subst d; dm).
  assert (E : n = n4 (n4 (n4 a b) c) d) by (subst a b c d; dm).
  assert (F : f 4 n = [dig a; dig b; dig c; dig d]). { cbn [fixed app]. replace (n / 16 / 16) with (n / 256) by dm. replace (n / 256 / 16) with (n / 4096) by dm. rewrite (Z.mod_small (n / 4096)) by exact A. reflexivity. }
  rewrite F. clearbody a b c d. subst n. unfold WriteHex4Impl. cbv zeta.
  assert (U : forall z, 0 <= z < 2 ^ 32 -> u32 z = z) by (intros z Hz; apply Z.mod_small; exact Hz).
  rewrite (U (Z.shiftl _ 12)) by (rewrite Z.shiftl_mul_pow2 by lia; lia). rewrite spread by assumption.
  replace (n8 (n8 (n8 a c) b) d + 101058054) with (n8 (n8 (n8 (a + 6) (c + 6)) (b + 6)) (d + 6)) by lia. rewrite (U (n8 (n8 (n8 (a + 6) (c + 6)) (b + 6)) (d + 6))) by lia.
  change 269488144 with (n8 (n8 (n8 16 16) 16) 16). rewrite !land_parts by lia. rewrite !carry by assumption.
  set (e := fun x => if x <? 10 then 0 else 1). fold (e a) (e b) (e c) (e d).
  assert (X : forall x, 0 <= e x <= 1) by (intros x; unfold e; destruct (x <? 10); lia). pose proof (X a). pose proof (X b). pose proof (X c). pose proof (X d).
  replace (n8 (n8 (n8 (16 * e a) (16 * e c)) (16 * e b)) (16 * e d)) with (n4 (n8 (n8 (n8 (e a) (e c)) (e b)) (e d)) 0) by lia. rewrite (proj1 (parts 4 _ 0 ltac:(lia) ltac:(lia))).
  set (m := DigitCaseDependent up 39 7). assert (M : 0 <= m <= 39) by (subst m; unfold DigitCaseDependent; destruct up; lia).
  assert (P : forall x, 0 <= x < 16 -> 48 + x + m * e x = dig x /\ 0 <= dig x < 128) by (intros x Hx; subst m; unfold e, digit_char, DigitCaseDependent; destruct (x <? 10), up; lia).
  destruct (P a A) as (PA & QA), (P b B) as (PB & QB), (P c C) as (PC & QC), (P d D) as (PD & QD).
  replace (m * n8 (n8 (n8 (e a) (e c)) (e b)) (e d)) with (n8 (n8 (n8 (m * e a) (m * e c)) (m * e b)) (m * e d)) by ring.
  assert (O : forall x, 0 <= e x <= 1 -> 0 <= m * e x <= 39) by (intros x Hx; clear - M Hx; nia). pose proof (O a (X a)). pose proof (O b (X b)). pose proof (O c (X c)). pose proof (O d (X d)).
  rewrite (U (n8 (n8 (n8 (m * e a) (m * e c)) (m * e b)) (m * e d))) by lia.
  match goal with |- context [u32 (u32 ?z + 707406378)] => rewrite (U z) by lia; replace (z + 707406378) with (n8 (n8 (n8 (dig a) (dig c)) (dig b)) (dig d)) by lia end.
  rewrite (U (n8 (n8 (n8 (dig a) (dig c)) (dig b)) (dig d))) by lia.
  assert (u32 (Z.shiftl (n8 (n8 (n8 (dig a) (dig c)) (dig b)) (dig d)) 24) = n8 (n8 (n8 (dig d) 0) 0) 0) as ->.
  { rewrite Z.shiftl_mul_pow2 by lia. symmetry. apply (Z.mod_unique _ _ (n8 (n8 (dig a) (dig c)) (dig b))); lia. }
  assert (Z.shiftr (n8 (n8 (n8 (dig a) (dig c)) (dig b)) (dig d)) 24 = n8 (n8 (n8 0 0) 0) (dig a)) as ->.
  { rewrite Z.shiftr_div_pow2 by lia. symmetry. apply (Z.div_unique _ _ _ (n8 (n8 (dig c) (dig b)) (dig d))); lia. }
  change 16776960 with (n8 (n8 (n8 0 255) 255) 0). rewrite !land_parts by lia. rewrite !land255, !Z.land_0_r by lia. rewrite !lor_parts by (rewrite ?Z.lor_0_r, ?Z.lor_0_l; lia). rewrite !Z.lor_0_r, !Z.lor_0_l.
  cbn [le_bytes]. repeat f_equal; dm.
Qed.
Lemma hex2 n : 0 <= n < 256 -> WriteHex2Impl ssse3 up n = f 2 n.
Proof.
  intros N. destruct ssse3; [unfold WriteHex2Impl; now rewrite register by lia|]. pose proof (all_2 up) as A. rewrite forallb_forall in A. specialize (A (Z.to_nat n)). rewrite Z2Nat.id in A by lia. apply list_eqb_eq, A. apply in_seq. change (2 ^ 8)%nat with 256%nat. lia.
Qed.
Lemma hex4 n : 0 <= n < 65536 -> WriteHex4Impl ssse3 up n = f 4 n.
Proof.
  intros N. destruct ssse3; [unfold WriteHex4Impl; now rewrite register by lia|]. now apply all_4.
Qed.
Lemma split16 a b n p : p = 16 ^ Z.of_nat b -> f (a + b) n = f a (n / p) ++ f b (n mod p). Proof. intros ->. now rewrite fixed_split by exact sixteen. Qed.
Lemma hex8 n : 0 <= n < 2 ^ 32 -> WriteHex8Impl ssse3 up n = f 8 n.
Proof. intros N. unfold WriteHex8Impl. destruct ssse3 eqn:S; [now rewrite register by lia|]. rewrite <- S. rewrite !hex4 by dm. symmetry. now apply (split16 4 4). Qed.
Lemma hex16 n : 0 <= n < 2 ^ 64 -> WriteHex16Impl ssse3 up n = f 16 n.
Proof. intros N. unfold WriteHex16Impl. destruct ssse3 eqn:S; [now rewrite register by lia|]. rewrite <- S. rewrite !hex8 by dm. symmetry. now apply (split16 8 8). Qed.
Lemma hex32 n : 0 <= n < 2 ^ 128 -> WriteHex32Impl ssse3 up n = f 32 n.
Proof. intros N. unfold WriteHex32Impl. rewrite !hex16 by dm. symmetry. now apply (split16 16 16). Qed.

Ltac size k := exists k; split; [try reflexivity|unfold sized; let a := eval vm_compute in (16 ^ Z.of_nat k) in change (16 ^ Z.of_nat k) with a; let c := eval vm_compute in (16 ^ (Z.of_nat k - 1)) in change (16 ^ (Z.of_nat k - 1)) with c; lia].
Lemma pad k n w : 1 <= Z.of_nat k -> 0 <= n < 16 ^ Z.of_nat k -> (16 ^ (Z.of_nat k - 1) <= n \/ Z.of_nat k <= Z.max 1 w) -> hex (Some ((if Z.of_nat k <? w then fill0 (w - Z.of_nat k) else []) ++ f k n)) n w.
Proof.
  intros K N M. destruct (Z.ltb_spec (Z.of_nat k) w) as [L|L].
  - assert (D : hex (Some (f k n)) n (Z.of_nat k)) by (exists k; split; [reflexivity|]; split; [lia|]; split; [lia|]; split; lia).
    pose proof (good_more 16 up sixteen _ n _ w D) as G. specialize (G ltac:(eexists; split; [reflexivity|unfold zlen; rewrite fixed_len; lia]) ltac:(lia)). cbn beta iota in G. unfold zlen in G. rewrite fixed_len in G. exact G.
  - exists k. split; [reflexivity|]. split; [lia|]. split; [lia|]. split; [lia|]. lia.
Qed.
(** The last digits of more digits *)
Lemma last_digits k m n : (m <= k)%nat -> zdrop (Z.of_nat k - Z.of_nat m) (f k n) = f m n.
Proof. intros M. replace k with (k - m + m)%nat at 2 by lia. rewrite fixed_app by exact sixteen. rewrite zdrop_app_r by (unfold zlen; rewrite fixed_len; lia). unfold zlen. rewrite fixed_len. apply zdrop_nonpos. lia. Qed.
Lemma part k n w : 1 <= Z.of_nat k -> 0 <= n < 16 ^ Z.of_nat k -> 0 <= w -> hex (Some (WriteHexPart (Z.of_nat k) (f k n) n w)) n w.
Proof.
  intros K N W. unfold WriteHexPart. assert (P : 2 ^ (4 * (Z.of_nat k - 1)) = 16 ^ (Z.of_nat k - 1)) by (change 16 with (2 ^ 4); now rewrite <- Z.pow_mul_r by lia). rewrite P.
  destruct ((16 ^ (Z.of_nat k - 1) <=? n) || (Z.of_nat k <=? w)) eqn:E; [apply pad; lia|]. destruct (bit_width_hex n ltac:(lia)) as (B1 & B2 & B3). set (m := (bit_width (Z.lor n 1) + 3) / 4) in *. cbv zeta.
  assert (MK : m <= Z.of_nat k). { destruct (Z.le_gt_cases m (Z.of_nat k)) as [?|G]; [assumption|]. specialize (B3 ltac:(lia)). assert (16 ^ Z.of_nat k <= 16 ^ (m - 1)) by (apply Z.pow_le_mono_r; lia). lia. }
  set (j := Z.to_nat (Z.max w m)). replace (Z.max w m) with (Z.of_nat j) by lia. unfold zslice. rewrite last_digits by lia. rewrite ztake_all by (unfold zlen; rewrite fixed_len; lia). exists j. split; [reflexivity|].
  assert (16 ^ m <= 16 ^ Z.of_nat j) by (apply Z.pow_le_mono_r; lia). split; [lia|]. split; [lia|]. split; [lia|]. intros J. replace (Z.of_nat j) with m by lia. apply B3. lia.
Qed.
Lemma sat a b : 0 <= a -> 0 <= SaturatingSub a b. Proof. unfold SaturatingSub. destruct (Z.ltb_spec a b); lia. Qed.
Lemma hexi8 n w : 0 <= n < 256 -> 0 <= w -> hex (WriteHexImpl8 ssse3 up n w) n w.
Proof.
  intros N W. unfold WriteHexImpl8. destruct ((n <? 16) && (w <=? 1)) eqn:E.
  - unfold WriteHex1Impl, check. replace (n <? 16) with true by lia. replace (n + (if n <? 10 then 48 else DigitCaseDependent up 97 65 - 10)) with (dig n) by (unfold digit_char, DigitCaseDependent; destruct (n <? 10), up; lia).
    exists 1%nat. cbn [fixed app]. rewrite Z.mod_small by lia. split; [reflexivity|]. unfold sized. change (16 ^ Z.of_nat 1) with 16. lia.
  - rewrite hex2 by lia. apply (pad 2); change (16 ^ Z.of_nat 2) with 256; change (16 ^ (Z.of_nat 2 - 1)) with 16; lia.
Qed.
Ltac half b k := unfold check; match goal with |- hex (if ?c then _ else _) _ _ => replace c with true by (symmetry; apply Z.ltb_lt; dm) end.
Lemma hexi16 n w : 0 <= n < 65536 -> 0 <= w -> hex (WriteHexImpl16 ssse3 up n w) n w.
Proof.
  intros N W. unfold WriteHexImpl16. destruct ssse3 eqn:S; rewrite <- S; [rewrite hex4 by lia; apply (part 4); change (16 ^ Z.of_nat 4) with 65536; lia|]. destruct (Z.leb_spec n (2 ^ 8 - 1)); [apply hexi8; lia|].
  unfold check. replace (n / 2 ^ 8 <? 2 ^ 8) with true by (symmetry; apply Z.ltb_lt; dm). rewrite hex2 by dm. apply (good_glue 16 up sixteen _ n w 2); [lia|apply hexi8; [change (16 ^ Z.of_nat 2) with 256; dm|now apply sat]|left; change (16 ^ Z.of_nat 2) with 256; dm].
Qed.
Lemma hexi32 n w : 0 <= n < 2 ^ 32 -> 0 <= w -> hex (WriteHexImpl32 ssse3 up n w) n w.
Proof.
  intros N W. unfold WriteHexImpl32. destruct ssse3 eqn:S; rewrite <- S; [rewrite hex8 by lia; apply (part 8); change (16 ^ Z.of_nat 8) with (2 ^ 32); lia|]. destruct (Z.leb_spec n (2 ^ 16 - 1)); [apply hexi16; lia|].
  unfold check. replace (n / 2 ^ 16 <? 2 ^ 16) with true by (symmetry; apply Z.ltb_lt; dm). rewrite hex4 by dm. apply (good_glue 16 up sixteen _ n w 4); [lia|apply hexi16; [change (16 ^ Z.of_nat 4) with 65536; dm|now apply sat]|left; change (16 ^ Z.of_nat 4) with 65536; dm].
Qed.
Lemma hexi64 n w : 0 <= n < 2 ^ 64 -> 0 <= w -> hex (WriteHexImpl64 ssse3 up n w) n w.
Proof.
  intros N W. unfold WriteHexImpl64. destruct ssse3 eqn:S; rewrite <- S; [rewrite hex16 by lia; apply (part 16); change (16 ^ Z.of_nat 16) with (2 ^ 64); lia|]. destruct (Z.leb_spec n (2 ^ 32 - 1)); [apply hexi32; lia|].
  unfold check. replace (n / 2 ^ 32 <? 2 ^ 32) with true by (symmetry; apply Z.ltb_lt; dm). rewrite hex8 by dm. apply (good_glue 16 up sixteen _ n w 8); [lia|apply hexi32; [change (16 ^ Z.of_nat 8) with (2 ^ 32); dm|now apply sat]|left; change (16 ^ Z.of_nat 8) with (2 ^ 32); dm].
Qed.
Lemma hexi128 n w : 0 <= n < 2 ^ 128 -> 0 <= w -> hex (WriteHexImpl128 ssse3 up n w) n w.
Proof.
  intros N W. unfold WriteHexImpl128. destruct (Z.eqb_spec (n / 2 ^ 64) 0); [assert (n < 2 ^ 64) by dm; rewrite Z.mod_small by lia; apply hexi64; lia|].
  rewrite hex16 by dm. apply (good_glue 16 up sixteen _ n w 16); [lia|apply hexi64; [change (16 ^ Z.of_nat 16) with (2 ^ 64); dm|now apply sat]|left; change (16 ^ Z.of_nat 16) with (2 ^ 64); dm].
Qed.
Definition full (b : bits) (n : Z) : list Z := match b with B8 => WriteHex2Impl ssse3 up n | B16 => WriteHex4Impl ssse3 up n | B32 => WriteHex8Impl ssse3 up n | B64 => WriteHex16Impl ssse3 up n | B128 => WriteHex32Impl ssse3 up n end.
Definition count (b : bits) : nat := match b with B8 => 2 | B16 => 4 | B32 => 8 | B64 => 16 | B128 => 32 end.
Lemma count_num b : Z.of_nat (count b) = num b / 4 /\ 16 ^ Z.of_nat (count b) = 2 ^ num b. Proof. destruct b; split; reflexivity. Qed.
Lemma full_ok b n : 0 <= n < 2 ^ num b -> full b n = f (count b) n.
Proof. intros N. destruct b; cbn [num] in N; cbn [full count]; [apply hex2|apply hex4|apply hex8|apply hex16|apply hex32]; lia. Qed.
Lemma WriteHexUnsigned_ok b n w : 0 <= n < 2 ^ num b -> 0 <= w -> hex (WriteHexUnsigned ssse3 up b n w) n w.
Proof.
  intros N W. unfold WriteHexUnsigned. destruct (Z.eqb_spec w (num b / 4)) as [E|E].
  - fold (full b n). rewrite full_ok by exact N. destruct (count_num b) as (C1 & C2). exists (count b). split; [reflexivity|]. split; [lia|]. destruct b; cbn [count num] in *; lia.
  - cbv zeta. destruct (Z.leb_spec w 1); [apply (good_width 16 up sixteen _ n 0); [lia|]|]; (destruct b; cbn [num] in N; [apply hexi8|apply hexi16|apply hexi32|apply hexi64|apply hexi128]; lia).
Qed.
(** The number of digits *)
Lemma hexsize b n : 0 <= n < 2 ^ num b -> let k := HexStringifiedSizeUnsigned b n in 1 <= k <= num b / 4 /\ n < 16 ^ k /\ (1 < k -> 16 ^ (k - 1) <= n).
Proof.
  intros N. cbv zeta. assert (H : HexStringifiedSizeUnsigned b n = (bit_width (Z.lor n 1) + 3) / 4 \/ b = B8).
  { destruct b; [now right|left; reflexivity..|left]. cbn [HexStringifiedSizeUnsigned num] in *. do 2 f_equal. destruct (Z.eqb_spec (n / 2 ^ 64) 0) as [Q|Q]; [rewrite Z.mod_small by dm; reflexivity|]. unfold bit_width. destruct (Z.eqb_spec (n / 2 ^ 64) 0) as [?|_]; [contradiction|].
    rewrite lor1 by lia. assert (P : 2 ^ 64 <= n) by dm. destruct (Z.eqb_spec (2 * (n / 2) + 1) 0); [dm|]. rewrite <- Z.shiftr_div_pow2 by lia. rewrite Z.log2_shiftr by lia. assert (64 <= Z.log2 n) by (apply Z.log2_le_pow2; lia).
    replace (Z.log2 (2 * (n / 2) + 1)) with (Z.succ (Z.log2 (n / 2))) by (symmetry; apply Z.log2_succ_double; dm). change (n / 2) with (n / 2 ^ 1). rewrite <- Z.shiftr_div_pow2 by lia. rewrite Z.log2_shiftr by lia. lia. }
  destruct H as [->| ->].
  - destruct (bit_width_hex n ltac:(lia)) as (B1 & B2 & B3). set (k := (bit_width (Z.lor n 1) + 3) / 4) in *. split; [|tauto]. split; [lia|]. destruct (Z.le_gt_cases k (num b / 4)) as [?|G]; [assumption|]. specialize (B3 ltac:(destruct b; cbn in *; lia)).
    destruct (count_num b) as (C1 & C2). rewrite <- C1 in G. assert (16 ^ Z.of_nat (count b) <= 16 ^ (k - 1)) by (apply Z.pow_le_mono_r; lia). lia.
  - cbn [HexStringifiedSizeUnsigned num] in *. change (8 / 4) with 2. destruct (Z.ltb_spec n 16); [split; [lia|]; change (16 ^ 1) with 16; lia|]. split; [lia|]. change (16 ^ 2) with 256. change (16 ^ (2 - 1)) with 16. lia.
Qed.
Lemma hexsize_len b n w t : 0 <= n < 2 ^ num b -> hex (Some t) n w -> zlen t = Z.max w (HexStringifiedSizeUnsigned b n).
Proof.
  intros N (j & [= ->] & A & C & D & F). unfold zlen. rewrite fixed_len. destruct (hexsize b n N) as (K1 & K2 & K3). set (k := HexStringifiedSizeUnsigned b n) in *.
  destruct (Z.lt_trichotomy (Z.of_nat j) (Z.max w k)) as [X|[X|X]]; [|exact X|].
  - assert (1 < k) by lia. specialize (K3 ltac:(lia)). assert (16 ^ Z.of_nat j <= 16 ^ (k - 1)) by (apply Z.pow_le_mono_r; lia). lia.
  - specialize (F ltac:(lia)). assert (16 ^ k <= 16 ^ (Z.of_nat j - 1)) by (apply Z.pow_le_mono_r; lia). lia.
Qed.
Lemma backward_ok b n w : 0 <= n < 2 ^ num b -> 0 <= w <= num b / 4 -> hex (WriteHexUnsignedBackward ssse3 up b n w) n w.
Proof.
  intros N W. unfold WriteHexUnsignedBackward. fold (full b n). rewrite full_ok by exact N. unfold zlen. rewrite fixed_len. destruct (count_num b) as (C1 & C2). destruct (hexsize b n N) as (K1 & K2 & K3). set (k := HexStringifiedSizeUnsigned b n) in *. rewrite <- C1 in *.
  unfold check. replace (w <=? Z.of_nat (count b)) with true by (symmetry; apply Z.leb_le; lia). cbv zeta. replace (Z.max w k <=? Z.of_nat (count b)) with true by (symmetry; apply Z.leb_le; lia). set (j := Z.to_nat (Z.max w k)). replace (Z.max w k) with (Z.of_nat j) by lia. rewrite last_digits by lia.
  exists j. split; [reflexivity|]. assert (16 ^ k <= 16 ^ Z.of_nat j) by (apply Z.pow_le_mono_r; lia). split; [lia|]. split; [lia|]. split; [lia|]. intros J. replace (Z.of_nat j) with k by lia. apply K3. lia.
Qed.
End Hex.
