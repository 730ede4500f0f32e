(** Decimal. *)
From Verif Require Import Base.Bytes Model.WriteInt Spec.WriteIntSpec Proof.WriteIntProof.

Notation f := (fixed 10 false).
Notation dec := (good 10 false).
Lemma ten : 2 <= 10 <= 16. Proof. lia. Qed.
Lemma char10 d : 0 <= d < 10 -> digit_char false d = 48 + d. Proof. intros D. unfold digit_char. destruct (Z.ltb_spec d 10); lia. Qed.
Lemma dec1 n : 0 <= n < 10 -> WriteDec1Impl n = Some (f 1 n).
Proof. intros N. unfold WriteDec1Impl, check. replace (n <? 10) with true by (symmetry; apply Z.ltb_lt; lia). cbn [fixed app]. now rewrite Z.mod_small, char10 by lia. Qed.
Lemma dec2 n : 0 <= n < 100 -> WriteDec2Impl n = Some (f 2 n).
Proof.
  intros N. unfold WriteDec2Impl, check. replace (n <? 100) with true by (symmetry; apply Z.ltb_lt; lia). cbn [fixed app].
  pose proof (Z.mod_pos_bound n 10 ltac:(lia)). assert (0 <= n / 10 < 10) by (Z.to_euclidean_division_equations; lia). rewrite (Z.mod_small (n / 10)) by lia. now rewrite !char10 by lia.
Qed.
Lemma join a b n p x y : p = 10 ^ Z.of_nat b -> x = Some (f a (n / p)) -> y = Some (f b (n mod p)) -> x +++ y = Some (f (a + b) n).
Proof. intros -> -> ->. cbn [cat]. now rewrite fixed_split by exact ten. Qed.
Ltac dm := Z.to_euclidean_division_equations; lia.
Lemma dec4 n : 0 <= n < 10000 -> write_4_digits n = Some (f 4 n).
Proof. intros N. apply (join 2 2 n 100); [reflexivity|apply dec2; dm|apply dec2; dm]. Qed.
Lemma dec6 n : 0 <= n < 1000000 -> write_6_digits n = Some (f 6 n).
Proof. intros N. apply (join 2 4 n 10000); [reflexivity|apply dec2; dm|apply dec4; dm]. Qed.
Lemma dec8 n : 0 <= n < 100000000 -> write_8_digits n = Some (f 8 n).
Proof. intros N. apply (join 2 6 n 1000000); [reflexivity|apply dec2; dm|apply dec6; dm]. Qed.
Lemma dec10 n : 0 <= n < 10000000000 -> WriteDec2Impl (n / 100000000) +++ write_8_digits (n mod 100000000) = Some (f 10 n).
Proof. intros N. apply (join 2 8 n 100000000); [reflexivity|apply dec2; dm|apply dec8; dm]. Qed.

Ltac size k := exists k; split; [try reflexivity|unfold sized; let a := eval vm_compute in (10 ^ Z.of_nat k) in change (10 ^ Z.of_nat k) with a; let c := eval vm_compute in (10 ^ (Z.of_nat k - 1)) in change (10 ^ (Z.of_nat k - 1)) with c; lia].
Lemma dec32 n w : 0 <= n < 10000000000 -> 0 <= w -> dec (WriteDecImpl32 n w) n w.
Proof.
  intros N W. unfold WriteDecImpl32.
  destruct ((n <? 100) && (w <=? 2)) eqn:E1. { destruct ((10 <=? n) || (w =? 2)) eqn:E; [unfold write_2_digits; rewrite dec2 by lia; size 2%nat|rewrite dec1 by lia; size 1%nat]. }
  destruct ((n <? 10000) && (w <=? 4)) eqn:E2. { destruct ((1000 <=? n) || (w =? 4)) eqn:E; [rewrite dec4 by lia; size 4%nat|]. rewrite (join 1 2 n 100); [size 3%nat|reflexivity|apply dec1; dm|apply dec2; dm]. }
  destruct ((n <? 1000000) && (w <=? 6)) eqn:E3. { destruct ((100000 <=? n) || (w =? 6)) eqn:E; [rewrite dec6 by lia; size 6%nat|]. rewrite (join 1 4 n 10000); [size 5%nat|reflexivity|apply dec1; dm|apply dec4; dm]. }
  destruct ((n <? 100000000) && (w <=? 8)) eqn:E4. { destruct ((10000000 <=? n) || (w =? 8)) eqn:E; [rewrite dec8 by lia; size 8%nat|]. rewrite (join 1 6 n 1000000); [size 7%nat|reflexivity|apply dec1; dm|apply dec6; dm]. }
  destruct ((n <? 1000000000) && (w <=? 9)) eqn:E5. { rewrite (join 1 8 n 100000000); [size 9%nat|reflexivity|apply dec1; dm|apply dec8; dm]. }
  rewrite dec10 by lia. destruct (Z.ltb_spec 10 w) as [L|L]; [|cbn [cat app]; size 10%nat]. cbn [cat].
  assert (D : dec (Some (f 10 n)) n 10) by size 10%nat. pose proof (good_more 10 false ten _ n 10 w D) as G. specialize (G ltac:(eexists; split; [reflexivity|unfold zlen; rewrite fixed_len; lia]) ltac:(lia)).
  cbn beta iota in G. unfold zlen in G. rewrite fixed_len in G. exact G.
Qed.
(** A fixed number of digits *)
Lemma dec_exact s n k : dec s n (Z.of_nat k) -> n < 10 ^ Z.of_nat k -> 1 <= Z.of_nat k -> s = Some (f k n).
Proof.
  intros (j & -> & A & C & D & F) L K. do 2 f_equal. destruct (Nat.eq_dec j k) as [?|N]; [assumption|]. assert (10 ^ Z.of_nat k <= 10 ^ (Z.of_nat j - 1)) by (apply Z.pow_le_mono_r; lia). lia.
Qed.
Lemma dec64 n w : 0 <= n < 2 ^ 64 -> 0 <= w -> dec (WriteDecImpl64 n w) n w.
Proof.
  intros N W. unfold WriteDecImpl64. destruct (Z.leb_spec n (2 ^ 32 - 1)) as [S|S]; [apply dec32; lia|]. cbv zeta.
  assert (T : forall m, 0 <= m < 10000000000 -> check (m / 100000000 <? 2 ^ 32) (WriteDec2Impl (m / 100000000) +++ check (m mod 100000000 <? 2 ^ 32) (WriteDecImpl32 (m mod 100000000) 8)) = Some (f 10 m)).
  { intros m M. unfold check. replace (m / 100000000 <? 2 ^ 32) with true by (symmetry; apply Z.ltb_lt; dm). replace (m mod 100000000 <? 2 ^ 32) with true by (symmetry; apply Z.ltb_lt; dm).
    apply (join 2 8 m 100000000); [reflexivity|apply dec2; dm|]. apply dec_exact; [apply dec32; [dm|lia]|change (10 ^ Z.of_nat 8) with 100000000; dm|lia]. }
  destruct ((10000000000 <=? n) || (10 <? w)) eqn:L.
  - assert (O : 0 <= n / 10000000000 < 10000000000) by dm. unfold check at 1. replace (n / 10000000000 <? 2 ^ 32) with true. 2: { symmetry. apply Z.ltb_lt. dm. }
    rewrite T by dm. apply (good_glue 10 false ten _ n w 10); [lia|apply dec32; [exact O|unfold SaturatingSub; destruct (w <? Z.of_nat 10) eqn:X; lia]|change (10 ^ Z.of_nat 10) with 10000000000; dm].
  - rewrite T by lia. cbn [cat app]. size 10%nat.
Qed.
Lemma dec128 n w : 0 <= n < 2 ^ 128 -> 0 <= w -> dec (WriteDecImpl128 n w) n w.
Proof.
  intros N W. unfold WriteDecImpl128. destruct (Z.leb_spec n (2 ^ 64 - 1)) as [S|S]; [apply dec64; lia|]. change (k1e20 =? 10000000000 * 10000000000) with true. unfold check at 1. cbv zeta. change k1e20 with 100000000000000000000.
  assert (T : forall m, 0 <= m < 100000000000000000000 -> check (m / 1000000000000000000 <? 2 ^ 32) (WriteDec2Impl (m / 1000000000000000000) +++ check (m mod 1000000000000000000 <? 2 ^ 64) (WriteDecImpl64 (m mod 1000000000000000000) 18)) = Some (f 20 m)).
  { intros m M. unfold check. replace (m / 1000000000000000000 <? 2 ^ 32) with true by (symmetry; apply Z.ltb_lt; dm). replace (m mod 1000000000000000000 <? 2 ^ 64) with true by (symmetry; apply Z.ltb_lt; dm).
    apply (join 2 18 m 1000000000000000000); [reflexivity|apply dec2; dm|]. apply dec_exact; [apply dec64; [dm|lia]|change (10 ^ Z.of_nat 18) with 1000000000000000000; dm|lia]. }
  destruct ((100000000000000000000 <=? n) || (20 <? w)) eqn:L.
  - assert (O : 0 <= n / 100000000000000000000 < 2 ^ 64) by dm. unfold check at 1. replace (n / 100000000000000000000 <? 2 ^ 64) with true by (symmetry; apply Z.ltb_lt; lia).
    rewrite T by dm. apply (good_glue 10 false ten _ n w 20); [lia|apply dec64; [exact O|unfold SaturatingSub; destruct (w <? Z.of_nat 20) eqn:X; lia]|change (10 ^ Z.of_nat 20) with 100000000000000000000; dm].
  - rewrite T by lia. cbn [cat app]. size 20%nat.
Qed.
Lemma WriteDec_ok b n w : 0 <= n < 2 ^ num b -> 0 <= w -> dec (WriteDec b n w) n w.
Proof. intros N W. destruct b; cbn [num] in N; cbn [WriteDec]; [apply dec32|apply dec32|apply dec32|apply dec64|apply dec128]; lia. Qed.
Lemma WriteDecUnsigned_ok b n w : 0 <= n < 2 ^ num b -> 0 <= w -> dec (WriteDecUnsigned b n w) n w.
Proof. intros N W. unfold WriteDecUnsigned. destruct (Z.leb_spec w 1); [apply (good_width 10 false ten _ n 0); [lia|]|]; apply WriteDec_ok; lia. Qed.

(** ** Backwards *)
Lemma back_ok limit rest : 99 <= limit -> (forall m, 0 <= m <= limit -> dec (rest m) m 0) -> forall k n, 0 <= n <= limit * 100 ^ Z.of_nat k -> dec (back (S k) limit rest n) n 0.
Proof.
  intros L R. induction k as [|k IH]; intros n N. { cbn [back]. replace (limit <? n) with false by (symmetry; apply Z.ltb_ge; change (100 ^ Z.of_nat 0) with 1 in N; lia). apply R. change (100 ^ Z.of_nat 0) with 1 in N. lia. }
  remember (S k) as k'. cbn [back]. destruct (Z.ltb_spec limit n) as [G|G]; [|apply R; lia]. subst k'. rewrite dec2 by dm. rewrite Nat2Z.inj_succ, Z.pow_succ_r in N by lia. assert (0 < 100 ^ Z.of_nat k) by (apply Z.pow_pos_nonneg; lia).
  apply (good_glue 10 false ten _ n 0 2); [lia| |left; change (10 ^ Z.of_nat 2) with 100; dm]. change (10 ^ Z.of_nat 2) with 100. change (SaturatingSub 0 (Z.of_nat 2)) with 0. apply IH. split; [dm|]. apply Z.div_le_upper_bound; nia.
Qed.
Lemma back32 n : 0 <= n < 2 ^ 32 -> dec (WriteDecBackward32 n) n 0.
Proof.
  intros N. apply back_ok; [lia| |change (100 ^ Z.of_nat 63) with (100 ^ 63); lia]. intros m M. cbv beta. destruct (Z.leb_spec 10 m); [rewrite dec2 by lia; size 2%nat|rewrite dec1 by lia; size 1%nat].
Qed.
Lemma back64 n : 0 <= n < 2 ^ 64 -> dec (WriteDecBackward64 n) n 0.
Proof. intros N. apply back_ok; [lia|intros m M; apply back32; lia|]. change (100 ^ Z.of_nat 63) with (100 ^ 63); lia. Qed.
Lemma back128 n : 0 <= n < 2 ^ 128 -> dec (WriteDecBackward128 n) n 0.
Proof. intros N. apply back_ok; [lia|intros m M; apply back64; lia|]. change (100 ^ Z.of_nat 63) with (100 ^ 63); lia. Qed.
Lemma WriteDecUnsignedBackward_ok b n : 0 <= n < 2 ^ num b -> dec (WriteDecUnsignedBackward b n) n 0.
Proof. intros N. destruct b; cbn [num] in N; cbn [WriteDecUnsignedBackward]; [apply back32|apply back32|apply back32|apply back64|apply back128]; lia. Qed.

(** ** The length *)
Definition entry_okb (n : Z) (p : nat * (Z * Z)) : bool :=
  let '(k, (size, threshold)) := p in
  match k with
  | O => (size =? 1) && (threshold =? 0)
  | S _ => let k := Z.of_nat k in (2 <=? size) && (threshold =? 10 ^ (size - 1)) && (10 ^ (size - 2) <=? 2 ^ (2 * k - 1)) && (Z.min (2 ^ (2 * k + 1)) (2 ^ n) <=? 10 ^ size)
  end.
Definition table_okb (n : Z) : bool := let l := MakeStringifiedSizeEntries n in (length l =? Z.to_nat (n / 2 + 1))%nat && forallb (entry_okb n) (combine (seq 0 (length l)) l).
Lemma tables : table_okb 32 && table_okb 64 && table_okb 128 = true. Proof. vm_compute. reflexivity. Qed.
Lemma entry n k : table_okb n = true -> (k < Z.to_nat (n / 2 + 1))%nat -> exists e, nth_error (MakeStringifiedSizeEntries n) k = Some e /\ entry_okb n (k, e) = true.
Proof.
  unfold table_okb. intros T K. apply andb_true_iff in T. destruct T as (L & F). apply Nat.eqb_eq in L. set (l := MakeStringifiedSizeEntries n) in *. destruct (nth_error l k) as [e|] eqn:E; [|apply nth_error_None in E; lia]. exists e. split; [reflexivity|].
  rewrite forallb_forall in F. apply F. assert (X : nth_error (combine (seq 0 (length l)) l) k = Some (k, e)).
  { clear - E. revert E. replace (k, e) with ((0 + k)%nat, e) by reflexivity. generalize 0%nat. revert k. induction l as [|x l IH]; intros k m E; [destruct k; discriminate|]. destruct k as [|k]; cbn [nth_error length seq combine] in *; [injection E as ->; f_equal; f_equal; lia|]. rewrite (IH k (S m) E). f_equal. f_equal. lia. }
  eapply nth_error_In, X.
Qed.
Lemma width128 n : 0 <= n < 2 ^ 128 -> (if n / 2 ^ 64 =? 0 then bit_width (n mod 2 ^ 64) else bit_width (n / 2 ^ 64) + 64) = bit_width n.
Proof.
  intros N. destruct (Z.eqb_spec (n / 2 ^ 64) 0) as [Q|Q]; [rewrite Z.mod_small; [reflexivity|]; dm|]. unfold bit_width. destruct (Z.eqb_spec (n / 2 ^ 64) 0) as [?|_]; [contradiction|]. assert (P : 0 < n) by (destruct (Z.eq_dec n 0) as [->|]; [exfalso; apply Q; reflexivity|lia]).
  destruct (Z.eqb_spec n 0); [lia|]. rewrite <- Z.shiftr_div_pow2 by lia. rewrite Z.log2_shiftr by lia. assert (64 <= Z.log2 n) by (apply Z.log2_le_pow2; [lia|]; dm). lia.
Qed.
Lemma size_ok b n t : 0 <= n < 2 ^ num b -> dec (Some t) n 0 -> StringifiedSizeUnsigned b n = Some (zlen t).
Proof.
  intros N (j & [= ->] & A & C & D & F). unfold StringifiedSizeUnsigned. unfold zlen. rewrite fixed_len. cbv zeta.
  replace (match b with B128 => if n / 2 ^ 64 =? 0 then bit_width (n mod 2 ^ 64) else bit_width (n / 2 ^ 64) + 64 | _ => bit_width n end) with (bit_width n) by (destruct b; try reflexivity; symmetry; now apply width128).
  assert (NW : n < 2 ^ num (wide b)) by (destruct b; cbn [wide num] in *; lia). assert (TB : table_okb (num (wide b)) = true). { pose proof tables as T. apply andb_true_iff in T. destruct T as (T & T3). apply andb_true_iff in T. destruct T as (T1 & T2). destruct b; assumption. }
  assert (WN : 32 <= num (wide b)) by (destruct b; cbn; lia).
  assert (BW : 0 <= bit_width n <= num (wide b) /\ (0 < n -> 2 ^ (bit_width n - 1) <= n < 2 ^ bit_width n)).
  { unfold bit_width. destruct (Z.eqb_spec n 0) as [->|Z0]; [split; lia|]. pose proof (Z.log2_nonneg n). pose proof (Z.log2_spec n ltac:(lia)) as LS. assert (Z.log2 n < num (wide b)) by (apply Z.log2_lt_pow2; lia). replace (Z.log2 n + 1 - 1) with (Z.log2 n) by lia. unfold Z.succ in LS. split; [lia|]. intros _. exact LS. }
  destruct BW as (BW & BV). destruct (entry (num (wide b)) (Z.to_nat (bit_width n / 2)) TB) as ((size, thr) & -> & OK). { assert (bit_width n / 2 <= num (wide b) / 2) by (apply Z.div_le_mono; lia). assert (0 <= bit_width n / 2) by (apply Z.div_pos; lia). lia. }
  assert (CNT : forall d, 1 <= d -> 10 ^ (d - 1) <= n < 10 ^ d -> Z.of_nat j = d).
  { intros d D1 DN. destruct (Z.lt_trichotomy (Z.of_nat j) d) as [X|[X|X]]; [|exact X|].
    - assert (10 ^ Z.of_nat j <= 10 ^ (d - 1)) by (apply Z.pow_le_mono_r; lia). lia.
    - assert (10 ^ d <= 10 ^ (Z.of_nat j - 1)) by (apply Z.pow_le_mono_r; lia). specialize (F ltac:(lia)). lia. }
  f_equal. destruct (Z.eq_dec (bit_width n / 2) 0) as [K|K].
  - rewrite K in OK. cbn [Z.to_nat entry_okb] in OK. apply andb_true_iff in OK. destruct OK as (O1 & O2). apply Z.eqb_eq in O1, O2. subst. replace (n <? 0) with false by (symmetry; apply Z.ltb_ge; lia).
    assert (n < 2). { destruct (Z.eq_dec n 0); [lia|]. specialize (BV ltac:(lia)). assert (bit_width n <= 1) by dm. assert (2 ^ bit_width n <= 2 ^ 1) by (apply Z.pow_le_mono_r; lia). lia. }
    destruct (Z.eq_dec (Z.of_nat j) 1); [lia|]. specialize (F ltac:(lia)). assert (10 ^ 1 <= 10 ^ (Z.of_nat j - 1)) by (apply Z.pow_le_mono_r; lia). lia.
  - assert (K0 : 1 <= bit_width n / 2) by dm. set (k := bit_width n / 2) in *. assert (P0 : 0 < n). { destruct (Z.eq_dec n 0) as [->|]; [|lia]. exfalso. apply K. reflexivity. }
    destruct (Z.to_nat k) as [|k'] eqn:EK; [lia|]. unfold entry_okb in OK. rewrite <- EK in OK. rewrite Z2Nat.id in OK by lia. rewrite !andb_true_iff, !Z.leb_le, Z.eqb_eq in OK. destruct OK as (((O1 & ->) & O2) & O3). specialize (BV P0).
    assert (LO : 2 ^ (2 * k - 1) <= n). { assert (2 ^ (2 * k - 1) <= 2 ^ (bit_width n - 1)); [|lia]. apply Z.pow_le_mono_r; [lia|]. subst k. dm. }
    assert (HI : n < 10 ^ size). { assert (2 ^ bit_width n <= 2 ^ (2 * k + 1)); [|lia]. apply Z.pow_le_mono_r; [lia|]. subst k. dm. }
    destruct (Z.ltb_spec n (10 ^ (size - 1))) as [Y|Y]; symmetry; [apply CNT|rewrite Z.sub_0_r; apply CNT]; try lia. replace (size - 1 - 1) with (size - 2) by lia. lia.
Qed.

