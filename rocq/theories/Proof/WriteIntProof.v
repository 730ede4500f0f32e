(** Numerals. *)
From Verif Require Import Base.Bytes Model.WriteInt Spec.WriteIntSpec.

(** ** Numerals with a fixed number of digits *)
Section Fixed.
Context (base : Z) (up : bool).
Hypothesis B : 2 <= base <= 16.
Fixpoint fixed (k : nat) (n : Z) : list Z := match k with O => [] | S k => fixed k (n / base) ++ [digit_char up (n mod base)] end.
Lemma fixed_len k : forall n, length (fixed k n) = k.
Proof. induction k as [|k IH]; intros n; [reflexivity|]. cbn [fixed]. rewrite app_length, IH. cbn. lia. Qed.
Lemma pow_pos k : 0 < base ^ Z.of_nat k. Proof. apply Z.pow_pos_nonneg; lia. Qed.
Lemma pow_S k : base ^ Z.of_nat (S k) = base * base ^ Z.of_nat k. Proof. rewrite Nat2Z.inj_succ. apply Z.pow_succ_r. lia. Qed.
Lemma pow_add a b : base ^ Z.of_nat (a + b) = base ^ Z.of_nat a * base ^ Z.of_nat b. Proof. rewrite Nat2Z.inj_add. apply Z.pow_add_r; lia. Qed.
Lemma fixed_app a b : forall n, fixed (a + b) n = fixed a (n / base ^ Z.of_nat b) ++ fixed b n.
Proof.
  induction b as [|b IH]; intros n. { rewrite Nat.add_0_r. cbn [Z.of_nat fixed]. now rewrite Z.pow_0_r, Z.div_1_r, app_nil_r. }
  rewrite Nat.add_succ_r. cbn [fixed]. rewrite IH, app_assoc, pow_S. rewrite Z.div_div by (pose proof (pow_pos b); lia). reflexivity.
Qed.
Lemma fixed_mod b : forall n, fixed b (n mod base ^ Z.of_nat b) = fixed b n.
Proof.
  induction b as [|b IH]; intros n; [reflexivity|]. cbn [fixed]. rewrite pow_S. pose proof (pow_pos b). rewrite Z.rem_mul_r by lia. f_equal.
  - rewrite <- (IH (n / base)). f_equal. rewrite Z.mul_comm, Z.div_add by lia. rewrite Z.div_small; [lia|]. apply Z.mod_pos_bound. lia.
  - f_equal. f_equal. rewrite Z.mul_comm, Z.mod_add by lia. apply Z.mod_mod. lia.
Qed.
Lemma fixed_split a b n : fixed (a + b) n = fixed a (n / base ^ Z.of_nat b) ++ fixed b (n mod base ^ Z.of_nat b). Proof. now rewrite fixed_mod, fixed_app. Qed.
Lemma fixed_0 a : fixed a 0 = repeat 48 a.
Proof. induction a as [|a IH]; [reflexivity|]. cbn [fixed]. rewrite Z.div_0_l, Z.mod_0_l, IH by lia. change (digit_char up 0) with 48. rewrite <- repeat_cons. reflexivity. Qed.
Lemma fixed_pad a b n : 0 <= n < base ^ Z.of_nat b -> fixed (a + b) n = repeat 48 a ++ fixed b n.
Proof. intros N. now rewrite fixed_app, Z.div_small, fixed_0 by assumption. Qed.

(** The number of digits is right *)
Definition sized (k : nat) (n w : Z) : Prop := 0 <= n < base ^ Z.of_nat k /\ 1 <= Z.of_nat k /\ w <= Z.of_nat k /\ (Z.max 1 w < Z.of_nat k -> base ^ (Z.of_nat k - 1) <= n).
Definition good (s : option (list Z)) (n w : Z) : Prop := exists k, s = Some (fixed k n) /\ sized k n w.
Lemma good_glue s n w b : 0 <= n -> good s (n / base ^ Z.of_nat b) (SaturatingSub w (Z.of_nat b)) -> (1 <= n / base ^ Z.of_nat b \/ Z.of_nat b < w) -> good (s +++ Some (fixed b (n mod base ^ Z.of_nat b))) n w.
Proof.
  intros N (k & -> & L & K1 & KW & M) Q. exists (k + b)%nat. split; [now rewrite fixed_split|]. unfold sized. pose proof (pow_pos b). pose proof (pow_pos k). rewrite pow_add.
  assert (NB : n < base ^ Z.of_nat k * base ^ Z.of_nat b). { pose proof (Z.div_mod n (base ^ Z.of_nat b) ltac:(lia)) as D. pose proof (Z.mod_pos_bound n (base ^ Z.of_nat b) ltac:(lia)). nia. }
  unfold SaturatingSub in *. rewrite Nat2Z.inj_add. split; [lia|]. split; [lia|]. split; [destruct (w <? Z.of_nat b) eqn:E in KW; lia|]. intros X.
  assert (P : base ^ (Z.of_nat k - 1) <= n / base ^ Z.of_nat b).
  { destruct (Z.ltb_spec w (Z.of_nat b)) as [E|E].
    - destruct (Z.eq_dec (Z.of_nat k) 1) as [->|Nk]; [change (base ^ (1 - 1)) with 1; lia|]. apply M. lia.
    - destruct (Z.eq_dec (Z.of_nat k) 1) as [Ek|Nk]; [|apply M; lia]. rewrite Ek. change (base ^ (1 - 1)) with 1. lia. }
  replace (Z.of_nat k + Z.of_nat b - 1) with (Z.of_nat k - 1 + Z.of_nat b) by lia. rewrite Z.pow_add_r by lia. pose proof (Z.div_mod n (base ^ Z.of_nat b) ltac:(lia)) as D. pose proof (Z.mod_pos_bound n (base ^ Z.of_nat b) ltac:(lia)). nia.
Qed.
(** [width] of 0 and 1 are the same *)
Lemma good_width s n w w' : Z.max 1 w = Z.max 1 w' -> good s n w -> good s n w'.
Proof. intros E (k & -> & A & C & D & F). exists k. split; [reflexivity|]. repeat split; lia. Qed.
Lemma good_more s n w w' : good s n w -> (exists t, s = Some t /\ zlen t < w') -> w <= w' -> match s with Some t => good (Some (fill0 (w' - zlen t) ++ t)) n w' | None => False end.
Proof.
  intros (k & -> & A & C & D & F) (t & [= <-] & L) W. unfold zlen in *. rewrite fixed_len in *. exists (Z.to_nat (w' - Z.of_nat k) + k)%nat. unfold fill0. rewrite fixed_pad by assumption. split; [reflexivity|].
  unfold sized. rewrite pow_add. pose proof (pow_pos (Z.to_nat (w' - Z.of_nat k))). split; [nia|]. repeat split; lia.
Qed.
Lemma good_len t n w : good (Some t) n w -> forall m, 0 <= m -> n < base ^ m -> zlen t <= Z.max (Z.max 1 w) m.
Proof.
  intros (k & [= ->] & A & C & D & F) m M L. unfold zlen. rewrite fixed_len. destruct (Z.le_gt_cases (Z.of_nat k) (Z.max (Z.max 1 w) m)) as [?|G]; [assumption|]. specialize (F ltac:(lia)).
  assert (base ^ m <= base ^ (Z.of_nat k - 1)) by (apply Z.pow_le_mono_r; lia). lia.
Qed.

(** The specification *)
Lemma fixed_digits k : forall n, exists ds, fixed k n = map (digit_char up) ds /\ Forall (fun d => 0 <= d < base) ds /\ (forall a, fold_left (fun a d => base * a + d) ds a = base ^ Z.of_nat k * a + n mod base ^ Z.of_nat k) /\
  (1 <= Z.of_nat k -> 0 <= n < base ^ Z.of_nat k -> hd 0 ds = n / base ^ (Z.of_nat k - 1)).
Proof.
  induction k as [|k IH]; intros n. { exists []. split; [reflexivity|]. split; [constructor|]. split; [intros a; cbn [fold_left Z.of_nat]; rewrite Z.pow_0_r, Z.mod_1_r; lia|intros; cbn in *; lia]. }
  destruct (IH (n / base)) as (ds & E & F & V & H). exists (ds ++ [n mod base]). cbn [fixed]. rewrite E, map_app. split; [reflexivity|]. split; [apply Forall_app; split; [exact F|constructor; [apply Z.mod_pos_bound; lia|constructor]]|]. split.
  - intros a. rewrite fold_left_app, V. cbn [fold_left]. rewrite pow_S. pose proof (pow_pos k). rewrite Z.rem_mul_r by lia. lia.
  - intros _ N. replace (Z.of_nat (S k) - 1) with (Z.of_nat k) by lia. destruct k as [|k].
    + destruct ds; [|apply (f_equal (@length _)) in E; cbn in E; discriminate]. cbn [app hd Z.of_nat]. rewrite Z.pow_0_r, Z.div_1_r. change (base ^ Z.of_nat 1) with (base ^ 1) in N. rewrite Z.pow_1_r in N. apply Z.mod_small. lia.
    + assert (D : ds <> []). { intros ->. apply (f_equal (@length _)) in E. rewrite fixed_len in E. discriminate. } rewrite pow_S in N. pose proof (pow_pos (S k)).
      destruct ds as [|d ds]; [contradiction|]. cbn [app hd] in *. rewrite H; [|lia|split; [apply Z.div_pos; lia|apply Z.div_lt_upper_bound; lia]]. rewrite Z.div_div by (try apply Z.pow_pos_nonneg; lia). f_equal. rewrite <- Z.pow_succ_r by lia. f_equal. lia.
Qed.
Lemma good_numeral t n w : good (Some t) n w -> numeral base up n w t.
Proof.
  intros (k & [= ->] & A & C & D & F). destruct (fixed_digits k n) as (ds & E & FA & V & H). exists ds. split; [exact E|]. split; [exact FA|]. split; [rewrite V, Z.mod_small by lia; lia|]. unfold zlen. rewrite fixed_len. split; [lia|]. split; [lia|].
  intros X. rewrite H by lia. specialize (F X). assert (0 < base ^ (Z.of_nat k - 1)) by (apply Z.pow_pos_nonneg; lia). assert (1 <= n / base ^ (Z.of_nat k - 1)) by (apply Z.div_le_lower_bound; lia). lia.
Qed.
Lemma digit_inj d e : 0 <= d < base -> 0 <= e < base -> digit_char up d = digit_char up e -> d = e.
Proof. intros D E. unfold digit_char. destruct (Z.ltb_spec d 10), (Z.ltb_spec e 10); destruct up; lia. Qed.
Lemma value_bound ds : Forall (fun d => 0 <= d < base) ds -> forall a, 0 <= a -> a * base ^ zlen ds <= fold_left (fun a d => base * a + d) ds a < (a + 1) * base ^ zlen ds.
Proof.
  induction 1 as [|d ds D _ IH]; intros a A; [cbn [fold_left]; change (zlen (@nil Z)) with 0; rewrite Z.pow_0_r; lia|]. cbn [fold_left]. rewrite zlen_cons. pose proof (zlen_nonneg ds). rewrite Z.pow_add_r by lia. rewrite Z.pow_1_r. specialize (IH (base * a + d) ltac:(nia)).
  assert (0 < base ^ zlen ds) by (apply Z.pow_pos_nonneg; lia). nia.
Qed.
End Fixed.
