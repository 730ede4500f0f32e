(** CommonPrefix (linear_sorted_string_set.cc) computes the length of the longest common prefix. *)
From Verif Require Import Base.Bytes Model.Varint Model.StringSet.

Ltac zl := change (zlen (@nil Z)) with 0 in *; rewrite ?zlen_cons in *.

Fixpoint lcp (a b : list Z) : Z :=
  match a, b with x :: a', y :: b' => if x =? y then 1 + lcp a' b' else 0 | _, _ => 0 end.

Lemma lcp_nonneg a b : 0 <= lcp a b.
Proof. revert b; induction a as [|x a IH]; intros [|y b]; cbn [lcp]; try lia. specialize (IH b). destruct (x =? y); lia. Qed.
Lemma lcp_le a b : lcp a b <= Z.min (zlen a) (zlen b).
Proof.
  revert b; induction a as [|x a IH]; intros [|y b]; cbn [lcp]; zl;
    try (pose proof (zlen_nonneg a)); try (pose proof (zlen_nonneg b)); try lia.
  specialize (IH b). destruct (x =? y); lia.
Qed.
Lemma lcp_app p a b : lcp (p ++ a) (p ++ b) = zlen p + lcp a b.
Proof. induction p as [|x p IH]; cbn [app lcp]; zl; [lia|]. rewrite Z.eqb_refl, IH. lia. Qed.
Lemma lcp_short x y a b : zlen x = zlen y -> lcp x y < zlen x -> lcp (x ++ a) (y ++ b) = lcp x y.
Proof.
  revert y; induction x as [|c x IH]; intros [|d y] E L; cbn [app lcp] in *; zl;
    try (pose proof (zlen_nonneg x)); try (pose proof (zlen_nonneg y)); try lia.
  destruct (c =? d); [|reflexivity]. rewrite IH by lia. reflexivity.
Qed.
Lemma lcp_full x y : zlen x = zlen y -> lcp x y = zlen x -> x = y.
Proof.
  revert y; induction x as [|c x IH]; intros [|d y] E L; cbn [lcp] in *; zl;
    try (pose proof (zlen_nonneg x)); try (pose proof (zlen_nonneg y)); try lia; try reflexivity.
  destruct (Z.eqb_spec c d) as [->|N]; [|lia]. f_equal. apply IH; lia.
Qed.
Lemma lcp_refl x : lcp x x = zlen x.
Proof. induction x as [|c x IH]; cbn [lcp]; zl; [reflexivity|]. rewrite Z.eqb_refl; lia. Qed.
Lemma lcp_take a b n : 0 <= n <= lcp a b -> ztake n a = ztake n b.
Proof.
  revert b n; induction a as [|x a IH]; intros [|y b] n H; cbn [lcp] in H;
    try (rewrite !ztake_nonpos by lia; reflexivity).
  destruct (Z.eqb_spec x y) as [->|N]; [|rewrite !ztake_nonpos by lia; reflexivity].
  destruct (Z.eq_dec n 0) as [->|N]; [rewrite !ztake_nonpos by lia; reflexivity|].
  rewrite !ztake_cons by lia. f_equal. apply IH; lia.
Qed.
Lemma lcp_split a b n : 0 <= n -> ztake n a = ztake n b -> n <= zlen a -> n <= zlen b -> lcp a b = n + lcp (zdrop n a) (zdrop n b).
Proof.
  intros H E La Lb. rewrite <- (ztake_zdrop n a) at 1. rewrite <- (ztake_zdrop n b) at 1. rewrite E, lcp_app, zlen_ztake. lia.
Qed.
Lemma lcp_split' a b n : 0 <= n <= lcp a b -> lcp a b = n + lcp (zdrop n a) (zdrop n b).
Proof. intros H. pose proof (lcp_le a b). apply lcp_split; try lia. apply lcp_take; lia. Qed.

(** ** Bits of little endian values *)
Lemma le_val_testbit l i j : bytes l -> 0 <= j < 8 -> 0 <= i -> 
  Z.testbit (le_val l) (8 * i + j) = Z.testbit (nth (Z.to_nat i) l 0) j.
Proof.
  intros B Hj; revert i; induction B as [|x l Hx B IH]; intros i Hi.
  - cbn [le_val]. rewrite Z.testbit_0_l. destruct (Z.to_nat i); cbn [nth]; rewrite Z.testbit_0_l; reflexivity.
  - cbn [le_val]. unfold is_byte in Hx.
    assert (E : x + 256 * le_val l = Z.lor x (Z.shiftl (le_val l) 8)) by (rewrite lor_shl_add by lia; lia).
    rewrite E, Z.lor_spec, Z.shiftl_spec by lia.
    destruct (Z.eq_dec i 0) as [->|N].
    + replace (8 * 0 + j - 8) with (j - 8) by lia. rewrite (Z.testbit_neg_r _ (j - 8)) by lia.
      rewrite orb_false_r. replace (8 * 0 + j) with j by lia. reflexivity.
    + replace (8 * i + j - 8) with (8 * (i - 1) + j) by lia. rewrite IH by lia.
      replace (Z.to_nat i) with (S (Z.to_nat (i - 1))) by lia. cbn [nth].
      assert (T : Z.testbit x (8 * i + j) = false).
      { destruct (Z.eq_dec x 0) as [->|Nx]; [apply Z.testbit_0_l|]. apply Z.bits_above_log2; [lia|].
        apply Z.log2_lt_pow2; [lia|]. apply Z.lt_le_trans with (2 ^ 8); [lia|]. apply Z.pow_le_mono_r; lia. }
      rewrite T. reflexivity.
Qed.

Lemma countr_zero_loop_spec fuel x : 0 < x < 2 ^ Z.of_nat fuel ->
  0 <= countr_zero_loop fuel x < Z.of_nat fuel /\
  Z.testbit x (countr_zero_loop fuel x) = true /\ (forall k, 0 <= k < countr_zero_loop fuel x -> Z.testbit x k = false).
Proof.
  revert x; induction fuel as [|fuel IH]; intros x H; [cbn in H; lia|].
  cbn [countr_zero_loop]. destruct (Z.odd x) eqn:O.
  - split; [lia|]. split; [rewrite Z.bit0_odd; exact O | intros; lia].
  - assert (E : x = 2 * (x / 2)).
    { rewrite (Z.div_mod x 2) at 1 by lia. rewrite Zmod_odd, O. lia. }
    assert (P : 2 ^ Z.of_nat (S fuel) = 2 * 2 ^ Z.of_nat fuel).
    { rewrite Nat2Z.inj_succ, Z.pow_succ_r by lia. reflexivity. }
    specialize (IH (x / 2) ltac:(lia)). destruct IH as (B & T & F). split; [lia|]. split.
    + rewrite Z.add_1_l. rewrite E at 1. rewrite Z.double_bits_succ. exact T.
    + intros k Hk. destruct (Z.eq_dec k 0) as [->|N]; [rewrite Z.bit0_odd; exact O|].
      rewrite E. replace k with (Z.succ (k - 1)) by lia. rewrite Z.double_bits_succ. apply F. lia.
Qed.
Lemma countr_zero_unique x c : 0 < x < 2 ^ 64 -> 0 <= c -> Z.testbit x c = true ->
  (forall k, 0 <= k < c -> Z.testbit x k = false) -> countr_zero x = c.
Proof.
  intros H C T F. destruct (countr_zero_loop_spec 64 x H) as (B & T' & F'). fold (countr_zero x) in *.
  destruct (Z.lt_trichotomy (countr_zero x) c) as [L | [E | L]]; [| exact E |].
  - rewrite F in T' by lia. discriminate.
  - rewrite F' in T by lia. discriminate.
Qed.

Lemma lcp_nth a b i : 0 <= i < lcp a b -> nth (Z.to_nat i) a 0 = nth (Z.to_nat i) b 0.
Proof.
  revert b i; induction a as [|x a IH]; intros [|y b] i H; cbn [lcp] in H; try lia.
  destruct (Z.eqb_spec x y) as [->|N]; [|lia].
  destruct (Z.eq_dec i 0) as [->|N]; [reflexivity|].
  replace (Z.to_nat i) with (S (Z.to_nat (i - 1))) by lia. cbn [nth]. apply IH. lia.
Qed.
Lemma lcp_differ a b : lcp a b < Z.min (zlen a) (zlen b) -> nth (Z.to_nat (lcp a b)) a 0 <> nth (Z.to_nat (lcp a b)) b 0.
Proof.
  revert b; induction a as [|x a IH]; intros [|y b] H; cbn [lcp] in *; zl;
    try (pose proof (zlen_nonneg a)); try (pose proof (zlen_nonneg b)); try lia.
  destruct (Z.eqb_spec x y) as [->|N]; [|exact N].
  pose proof (lcp_nonneg a b). replace (Z.to_nat (1 + lcp a b)) with (S (Z.to_nat (lcp a b))) by lia. cbn [nth]. apply IH. lia.
Qed.

(** The lowest bit where two bytes differ *)
Lemma low_bit x : 0 < x < 256 -> exists c, 0 <= c < 8 /\ Z.testbit x c = true /\ forall k, 0 <= k < c -> Z.testbit x k = false.
Proof. intros H. destruct (countr_zero_loop_spec 8 x H) as (B & T & F). exists (countr_zero_loop 8 x). auto. Qed.

Lemma lxor_bound a b n : 0 <= n -> 0 <= a < 2 ^ n -> 0 <= b < 2 ^ n -> 0 <= Z.lxor a b < 2 ^ n.
Proof.
  intros Hn Ha Hb. assert (0 <= Z.lxor a b) by (apply Z.lxor_nonneg; lia). split; [assumption|].
  destruct (Z.eq_dec (Z.lxor a b) 0) as [->|N]; [lia|].
  apply Z.log2_lt_pow2; [lia|].
  destruct (Z.eq_dec a 0) as [->|Na]; [rewrite Z.lxor_0_l in *; apply Z.log2_lt_pow2; lia|].
  destruct (Z.eq_dec b 0) as [->|Nb]; [rewrite Z.lxor_0_r in *; apply Z.log2_lt_pow2; lia|].
  pose proof (Z.log2_lxor a b ltac:(lia) ltac:(lia)).
  pose proof (proj1 (Z.log2_lt_pow2 a n ltac:(lia)) ltac:(lia)).
  pose proof (proj1 (Z.log2_lt_pow2 b n ltac:(lia)) ltac:(lia)). lia.
Qed.

Lemma xor_block a b : bytes a -> bytes b -> zlen a = 8 -> zlen b = 8 ->
  let x := Z.lxor (le_val a) (le_val b) in
  (x = 0 -> a = b) /\ (x <> 0 -> lcp a b < 8 /\ countr_zero x / 8 = lcp a b).
Proof.
  intros Ba Bb La Lb x. split.
  - intros E. apply Z.lxor_eq in E. apply le_val_inj; auto. unfold zlen in *. lia.
  - intros N.
    assert (L : lcp a b < 8).
    { pose proof (lcp_le a b). destruct (Z.eq_dec (lcp a b) 8) as [E|]; [|lia]. exfalso. apply N. unfold x.
      rewrite (lcp_full a b) by lia. apply Z.lxor_nilpotent. }
    split; [exact L|]. pose proof (lcp_nonneg a b) as P.
    set (k := lcp a b) in *.
    assert (Hk : nth (Z.to_nat k) a 0 <> nth (Z.to_nat k) b 0) by (apply lcp_differ; fold k; lia).
    assert (By : forall l, bytes l -> zlen l = 8 -> 0 <= nth (Z.to_nat k) l 0 < 256).
    { intros l B' L'. apply (proj1 (Forall_forall _ _) B'). apply nth_In. unfold zlen in L'. lia. }
    pose proof (By a Ba La) as Wa. pose proof (By b Bb Lb) as Wb.
    set (y := Z.lxor (nth (Z.to_nat k) a 0) (nth (Z.to_nat k) b 0)).
    assert (Hy : 0 < y < 256).
    { pose proof (lxor_bound _ _ 8 ltac:(lia) Wa Wb) as W. change (2 ^ 8) with 256 in W. fold y in W.
      destruct (Z.eq_dec y 0) as [E|]; [|lia]. apply Z.lxor_eq in E. contradiction. }
    destruct (low_bit y Hy) as (c & Hc & T & F).
    assert (Bx : 0 <= x < 2 ^ 64).
    { apply lxor_bound; [lia| |].
      - pose proof (le_val_bound a Ba) as W. rewrite La in W. exact W.
      - pose proof (le_val_bound b Bb) as W. rewrite Lb in W. exact W. }
    assert (E : countr_zero x = 8 * k + c).
    { apply countr_zero_unique; [lia | lia | |].
      - unfold x. rewrite Z.lxor_spec, !le_val_testbit, <- Z.lxor_spec by (auto; lia). exact T.
      - intros m Hm. unfold x. rewrite Z.lxor_spec.
        replace m with (8 * (m / 8) + m mod 8) by (symmetry; apply Z.div_mod; lia).
        assert (0 <= m / 8 <= k) by (split; [apply Z.div_pos; lia|]; assert (m / 8 < k + 1) by (apply Z.div_lt_upper_bound; lia); lia).
        pose proof (Z.mod_pos_bound m 8 ltac:(lia)).
        rewrite !le_val_testbit, <- Z.lxor_spec by (auto; lia).
        destruct (Z.eq_dec (m / 8) k) as [E|N'].
        + rewrite E. apply F. pose proof (Z.div_mod m 8 ltac:(lia)). lia.
        + rewrite lcp_nth with (b := b) by (fold k; lia). rewrite Z.lxor_nilpotent. apply Z.testbit_0_l. }
    rewrite E. rewrite Z.mul_comm, Z.div_add_l, (Z.div_small c 8) by lia. lia.
Qed.

Lemma view_some m p n : 0 <= p -> 0 <= n -> p + n <= zlen m -> view m p n = Some (zslice p n m).
Proof.
  intros. unfold view. replace ((0 <=? p) && (0 <=? n) && (p + n <=? zlen m)) with true; [reflexivity|].
  symmetry. rewrite !andb_true_iff, !Z.leb_le. lia.
Qed.

Lemma zslice_1 (l : list Z) p : 0 <= p < zlen l -> exists x rest, zdrop p l = x :: rest /\ zslice p 1 l = [x].
Proof.
  intros H. destruct (zdrop p l) as [|x rest] eqn:E.
  - assert (zlen (zdrop p l) = 0) by (rewrite E; reflexivity). rewrite zlen_zdrop in *. lia.
  - exists x, rest. split; [reflexivity|]. unfold zslice. rewrite E, ztake_cons by lia. rewrite ztake_nonpos by lia. reflexivity.
Qed.

Lemma common_prefix_bytes_ok a b : forall fuel n, 0 <= n -> n <= Z.min (zlen a) (zlen b) ->
  Z.min (zlen a) (zlen b) - n < Z.of_nat fuel ->
  common_prefix_bytes fuel a b n (Z.min (zlen a) (zlen b)) = Some (n + lcp (zdrop n a) (zdrop n b)).
Proof.
  induction fuel as [|fuel IH]; intros n H H1 F; [lia|].
  cbn [common_prefix_bytes]. destruct (Z.ltb_spec n (Z.min (zlen a) (zlen b))) as [L|L].
  - rewrite !view_some by lia.
    destruct (zslice_1 a n ltac:(lia)) as (x & ra & Ea & ->). destruct (zslice_1 b n ltac:(lia)) as (y & rb & Eb & ->).
    rewrite Ea, Eb. cbn [lcp].
    assert (Q : list_eqb [x] [y] = (x =? y)).
    { destruct (Z.eqb_spec x y) as [->|N]; [apply list_eqb_refl|]. destruct (list_eqb [x] [y]) eqn:E; [|reflexivity].
      apply list_eqb_eq in E. injection E as E. contradiction. }
    rewrite Q. destruct (x =? y) eqn:XY; cbn [negb].
    + rewrite IH by lia. replace (zdrop (n + 1) a) with ra; [replace (zdrop (n + 1) b) with rb; [f_equal; lia|] |].
      * replace (n + 1) with (1 + n) by lia. rewrite <- zdrop_zdrop by lia. rewrite Eb. reflexivity.
      * replace (n + 1) with (1 + n) by lia. rewrite <- zdrop_zdrop by lia. rewrite Ea. reflexivity.
    + f_equal. lia.
  - f_equal. pose proof (lcp_le (zdrop n a) (zdrop n b)) as W. pose proof (lcp_nonneg (zdrop n a) (zdrop n b)).
    rewrite !zlen_zdrop in W. lia.
Qed.

Lemma xor_blocks_ok a b p : bytes a -> bytes b -> 0 <= p -> p + 8 <= zlen a -> p + 8 <= zlen b ->
  exists x, xor_blocks a b p = Some x /\ (x = 0 -> zslice p 8 a = zslice p 8 b) /\
  (x <> 0 -> p + countr_zero x / 8 = p + lcp (zdrop p a) (zdrop p b)).
Proof.
  intros Ba Bb H La Lb. unfold xor_blocks. rewrite !view_some by lia. eexists; split; [reflexivity|].
  assert (W : forall l, bytes l -> bytes (zslice p 8 l)) by (intros; apply bytes_ztake, bytes_zdrop; assumption).
  assert (Z8 : forall l : list Z, p + 8 <= zlen l -> zlen (zslice p 8 l) = 8).
  { intros. unfold zslice. rewrite zlen_ztake, zlen_zdrop. lia. }
  destruct (xor_block (zslice p 8 a) (zslice p 8 b)) as [E1 E2]; auto.
  split; [exact E1|]. intros N. destruct (E2 N) as [L ->]. f_equal.
  rewrite <- (ztake_zdrop 8 (zdrop p a)) at 1. rewrite <- (ztake_zdrop 8 (zdrop p b)) at 1.
  unfold zslice in *. rewrite lcp_short; [reflexivity| |]; rewrite !Z8 by lia; lia.
Qed.

Lemma common_prefix_blocks_ok a b : bytes a -> bytes b -> 8 <= Z.min (zlen a) (zlen b) -> forall fuel n,
  0 <= n -> n < Z.min (zlen a) (zlen b) - 8 + 8 \/ n = 0 -> n <= Z.min (zlen a) (zlen b) -> ztake n a = ztake n b ->
  Z.min (zlen a) (zlen b) - n <= Z.of_nat fuel -> (0 < fuel)%nat ->
  common_prefix_blocks fuel a b n (Z.min (zlen a) (zlen b) - 8) = Some (lcp a b).
Proof.
  intros Ba Bb M. set (m := Z.min (zlen a) (zlen b)) in *.
  induction fuel as [|fuel IH]; intros n H H' H1 E F F0; [lia|].
  cbn [common_prefix_blocks]. destruct (Z.ltb_spec n (m - 8)) as [L|L].
  - destruct (xor_blocks_ok a b n Ba Bb) as (x & -> & E1 & E2); [lia | lia | lia |].
    destruct (Z.eqb_spec x 0) as [E0|N]; cbn [negb].
    + apply IH; try lia. rewrite !(ztake_split n 8) by lia. f_equal; [exact E|]. exact (E1 E0).
    + rewrite E2 by exact N. f_equal. symmetry. apply lcp_split; auto; lia.
  - destruct (xor_blocks_ok a b (m - 8) Ba Bb) as (x & -> & E1 & E2); [lia | lia | lia |].
    assert (E' : ztake (m - 8) a = ztake (m - 8) b).
    { apply (f_equal (ztake (m - 8))) in E. rewrite !ztake_ztake in E. replace (Z.min (m - 8) n) with (m - 8) in E by lia. exact E. }
    rewrite (lcp_split a b (m - 8)) by (auto; lia).
    destruct (Z.eqb_spec x 0) as [E0|N]; cbn [negb].
    + f_equal. f_equal. rewrite (lcp_split (zdrop (m - 8) a) (zdrop (m - 8) b) 8) by (try rewrite zlen_zdrop; try lia; exact (E1 E0)).
      pose proof (lcp_le (zdrop 8 (zdrop (m - 8) a)) (zdrop 8 (zdrop (m - 8) b))) as W.
      pose proof (lcp_nonneg (zdrop 8 (zdrop (m - 8) a)) (zdrop 8 (zdrop (m - 8) b))).
      rewrite !zlen_zdrop in W. lia.
    + rewrite E2 by exact N. reflexivity.
Qed.

Lemma CommonPrefix_ok a b : bytes a -> bytes b -> CommonPrefix a b = Some (lcp a b).
Proof.
  intros Ba Bb. unfold CommonPrefix. pose proof (zlen_nonneg a). pose proof (zlen_nonneg b).
  destruct (Z.ltb_spec (Z.min (zlen a) (zlen b)) 8) as [L|L].
  - rewrite common_prefix_bytes_ok; [reflexivity | lia | lia |]. unfold zlen in *. lia.
  - apply common_prefix_blocks_ok; auto; try lia; try (rewrite !ztake_nonpos by lia; reflexivity). unfold zlen in *; lia.
Qed.
